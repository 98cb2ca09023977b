(** Contact monitoring. *)
From Coq Require Import Sorted.
From Verif Require Import Base BaseProofs LogMathModel NodeMathProofs LogMathProofs TransMathModel TransMathSpec TransMathProofs TransMathProofs2 LaddersModel LaddersProofs CodecModel AlgModel AlgSpec AlgProofs AlgProofs2 AlgProofs3 AlgProofs4.

Section Contact.
Context {S : Type}.
Variable P : provider S.
Variable c : pubConfig.
Variables (n : N) (ts : N -> N).
Hypothesis Hn : 1 <= n < 2 ^ 64.
Hypothesis HT : timestampsOf P n ts.
Local Notation w := (pc_rmw c).

Lemma ts_mono x y : x <= y < n -> ts x <= ts y.
Proof. apply HT. Qed.
Lemma ts_64 x : x < n -> ts x < two64.
Proof. apply HT. Qed.

Lemma getTs_val x s t s' l : x < n -> run P (getTs x) s = (Ok t, s', l) -> t = ts x.
Proof.
  intros Hx H. cbn in H. destruct (pTs P s x) as [[a|m|m|] s1] eqn:E; cbn in H; inversion H; subst.
  destruct HT as (_ & _ & G). eapply G; eauto.
Qed.

Lemma ancestor_loop_ok target fuel : forall a len left right best s o s' l,
  SRange n a len -> a <= target < a + len ->
  (forall y, a <= y < a + len -> left <= ts y <= right) -> right < two64 ->
  (forall d, DIn ts w a len left right d -> distinguished n ts w d) ->
  (forall d, best = Some d -> distinguished n ts w d /\ target <= d) ->
  run P (ancestor_loop c fuel n target (sroot a len) left right best) s = (Ok o, s', l) ->
  forall d, o = Some d -> distinguished n ts w d /\ target <= d.
Proof.
  induction fuel as [|f IH]; intros a len left right best s o s' l R Ht Hb Hr HD Hbest H; [discriminate|].
  cbn [ancestor_loop] in H.
  destruct (nav_len n a len Hn R) as (L1 & L2 & L3).
  assert (Hx : a <= sroot a len < a + len) by (unfold sroot; lia).
  pose proof (Hb _ Hx) as Hbx.
  destruct (isDistinguished w left right) eqn:ED; cbn [negb] in H.
  2:{ cbn in H. injection H as <- <- <-. auto. }
  apply isDist_spec in ED; [|lia|auto].
  set (best' := if target <=? sroot a len then Some (sroot a len) else best) in *.
  assert (Hbest' : forall d, best' = Some d -> distinguished n ts w d /\ target <= d).
  { unfold best'. destruct (N.leb_spec target (sroot a len)); auto. intros d E. injection E as <-. split; auto. apply HD. constructor; auto. }
  destruct (N.eqb_spec (sroot a len) target).
  { cbn in H. injection H as <- <- <-. auto. }
  apply run_bind_ok in H as (t & s1 & l1 & l2 & E1 & H & ->).
  apply getTs_val in E1; [|apply (nav_lt n a len Hn R)]. subst t.
  destruct (N.ltb_spec target (sroot a len)).
  - assert (Hl : 0 < lsize len) by (unfold sroot in *; lia).
    rewrite (nav_left n a len Hn R Hl) in H. cbn [lift pbind] in H.
    eapply (IH a (lsize len)); try exact H; auto.
    + constructor; auto.
    + unfold sroot in *. lia.
    + intros y Hy. split; [apply Hb; lia|]. apply ts_mono. unfold sroot in *. lia.
    + apply ts_64. lia.
    + intros d Hd. apply HD. apply DI_left; auto.
  - assert (Hrr : lsize len + 1 < len) by (unfold sroot in *; lia).
    rewrite (nav_right n a len Hn R Hrr) in H. cbn [lift pbind] in H.
    eapply (IH (sroot a len + 1) (len - lsize len - 1)); try exact H; auto.
    + constructor; auto.
    + unfold sroot in *. lia.
    + intros y Hy. split; [apply ts_mono; unfold sroot in *; lia|]. apply Hb. unfold sroot in *. lia.
    + intros d Hd. apply HD. apply DI_right; auto.
Qed.

Lemma ancestor_ok m target s o s' l : mo_size m = n -> mo_rightmost m = ts (n - 1) -> target < n ->
  run P (distinguishedAncestor c m target) s = (Ok o, s', l) ->
  forall d, o = Some d -> distinguished n ts w d /\ target <= d.
Proof.
  intros Em Er Ht H.
  assert (ED : distinguishedAncestor c m target = ancestor_loop c 66 n target (sroot 0 n) 0 (ts (n - 1)) None).
  { unfold distinguishedAncestor. destruct (c09_entries n Hn) as (E0 & _). rewrite Em, Er, E0. reflexivity. }
  rewrite ED in H. clear ED.
  apply (ancestor_loop_ok target 66 0 n 0 (ts (n - 1)) None s o s' l); auto.
  - constructor.
  - lia.
  - intros y Hy. split; [lia|]. apply ts_mono. lia.
  - apply ts_64. lia.
  - discriminate.
Qed.

Lemma run_getMon_ok x v s a s' l : run P (getMonitoring x v) s = (Ok a, s', l) -> l = [EvMon x v (Ok tt)].
Proof. cbn. destruct (pMon P s x v) as [[[]|m|m|] s1]; cbn; intro H; inversion H; auto. Qed.

Lemma contact_loop_ok ver xs : forall prev s early prev' s' l,
  run P (contact_loop ver xs prev) s = (Ok (early, prev'), s', l) ->
  (forall y v, mget prev y = Some v -> mget prev' y = Some v) /\
  (forall y v, mget prev' y = Some v -> mget prev y = Some v \/ In (EvMon y v (Ok tt)) l) /\
  (early = false -> forall y, In y xs -> mget prev y = None /\ mget prev' y = Some ver /\ In (EvMon y ver (Ok tt)) l) /\
  (early = true -> exists y v', In y xs /\ ver < v' /\ mget prev y = Some v').
Proof.
  induction xs as [|y t IH]; intros prev s early prev' s' l H; cbn [contact_loop] in H.
  - cbn in H. inversion H; subst. repeat split; auto; try discriminate; cbn in *; tauto.
  - destruct (mget prev y) as [pv|] eqn:Ey.
    + destruct (N.leb_spec pv ver); [discriminate|]. cbn in H. inversion H; subst. split; auto. split; auto. split; [discriminate|].
      intros _. exists y, pv. repeat split; auto. left; auto.
    + apply run_bind_ok in H as ([] & s1 & l1 & l2 & E1 & H & ->). apply run_getMon_ok in E1. subst l1.
      apply IH in H as (A & B & C & D).
      assert (A' : forall z v, mget prev z = Some v -> mget prev' z = Some v).
      { intros z v Hz. apply A. rewrite mget_mput_neq; auto. congruence. }
      split; auto. split.
      { intros z v Hz. destruct (B z v Hz) as [Hb|Hb]; [|right; right; auto].
        destruct (N.eq_dec y z) as [<-|Ne].
        - rewrite mget_mput_eq in Hb. injection Hb as <-. right. left. auto.
        - rewrite mget_mput_neq in Hb; auto. }
      split.
      { intros E z [<-|Hz].
        - split; auto. split; [apply A, mget_mput_eq|left; auto].
        - destruct (C E z Hz) as (C1 & C2 & C3). split; [|split; auto; right; auto].
          destruct (N.eq_dec y z) as [<-|Ne]; auto. rewrite mget_mput_neq in C1; auto. }
      intro E. destruct (D E) as (z & v' & Hz & Hv & G). destruct (N.eq_dec y z) as [<-|Ne].
      * rewrite mget_mput_eq in G. injection G as <-. lia.
      * rewrite mget_mput_neq in G; auto. exists z, v'. repeat split; auto. right; auto.
Qed.

Local Opaque distinguishedAncestor.

Definition pathOf (x : N) : list N := match rightDirectPath x n with Ok d => d | _ => [] end.

Lemma pathOf_spec x : x < n -> rightDirectPath x n = Ok (pathOf x) /\ (forall y, In y (pathOf x) <-> sanc n x y /\ x < y).
Proof. intro H. destruct (c11_right n x Hn H) as (d & E & A & _). unfold pathOf. rewrite E. auto. Qed.

Lemma inspect_None skip p : inspectList None skip p = p.
Proof. induction p as [|y t IH]; cbn; congruence. Qed.

Lemma inspect_incl stop skip p y : In y (inspectList stop skip p) -> In y p.
Proof.
  induction p as [|z t IH]; cbn; auto.
  destruct stop as [d|].
  - destruct (d =? z); [destruct skip; cbn; tauto|]. intros [->|H]; auto.
  - intros [->|H]; auto.
Qed.

Lemma contactOne_ok m x ver prev s upd prev' s' l : mo_size m = n -> mo_rightmost m = ts (n - 1) -> x < n ->
  run P (contactMonitorOne c m x ver prev) s = (Ok (upd, prev'), s', l) ->
  (forall y v, mget prev y = Some v -> mget prev' y = Some v) /\
  (forall y v, mget prev' y = Some v -> mget prev y = Some v \/ In (EvMon y v (Ok tt)) l) /\
  match upd with
  | Some y => y = List.last (pathOf x) x /\
      forall y', In y' (pathOf x) -> mget prev y' = None /\ mget prev' y' = Some ver /\ In (EvMon y' ver (Ok tt)) l
  | None => (exists d, distinguished n ts w d /\ x <= d) \/ (exists y v', In y (pathOf x) /\ ver < v' /\ mget prev y = Some v')
  end.
Proof.
  intros Em Er Hx H. unfold contactMonitorOne in H.
  apply run_bind_ok in H as (stop & s1 & l1 & l2 & E1 & H & ->).
  pose proof (ancestor_ok m x s stop s1 l1 Em Er Hx E1) as HS.
  destruct (match stop with Some s0 => s0 =? x | None => false end) eqn:B.
  - cbn in H. inversion H; subst. split; auto. split; auto. left. destruct stop as [d|]; [|discriminate].
    exists d. apply HS. auto.
  - rewrite Em in H. destruct (pathOf_spec x Hx) as [EP _]. rewrite EP in H. cbn [lift pbind] in H.
    apply run_bind_ok in H as ((early & prev1) & s2 & l3 & l4 & E2 & H & ->).
    apply contact_loop_ok in E2 as (A & C & D & E).
    assert (HP : prev1 = prev' /\ l4 = []).
    { destruct early; [cbn in H; inversion H; auto|]. destruct stop; cbn in H; inversion H; auto. }
    destruct HP as [-> ->].
    split; auto. split. { intros y v Hy. destruct (C y v Hy); auto. right. apply in_or_app. right. rewrite app_nil_r. auto. }
    destruct early.
    + cbn in H. inversion H; subst. right. destruct (E eq_refl) as (y & v' & Hy & Hv & G). exists y, v'. repeat split; auto.
      eapply inspect_incl; eauto.
    + destruct stop as [d|].
      * cbn in H. inversion H; subst. left. exists d. apply HS; auto.
      * rewrite inspect_None in *. cbn in H. inversion H; subst. split; auto. intros y' Hy.
        destruct (D eq_refl y' Hy) as (D1 & D2 & D3). repeat split; auto. apply in_or_app. right. rewrite app_nil_r. auto.
Qed.

Lemma last_in (p : list N) x : p <> [] -> In (List.last p x) p.
Proof.
  induction p as [|y t IH]; [congruence|]. intros _. destruct t as [|z t]; [left; auto|]. right. apply IH. discriminate.
Qed.

Definition verOf (ptrs0 : list (N * N)) (x : N) : N := match mget ptrs0 x with Some v => v | None => 0 end.

Definition droppedFor (x v : N) (l : list event) : Prop :=
  (exists d, distinguished n ts w d /\ x <= d) \/
  (exists y v', In y (pathOf x) /\ v < v' /\ In (EvMon y v' (Ok tt)) l).

Definition keptAt (ptrs0 prev ptrs : list (N * N)) (x : N) : Prop :=
  mget ptrs (List.last (pathOf x) x) = Some (verOf ptrs0 x) /\
  (pathOf x = [] \/ exists v, mget prev (List.last (pathOf x) x) = Some v).

Lemma contactAll_ok m ptrs0 xs : mo_size m = n -> mo_rightmost m = ts (n - 1) ->
  forall dn prev ptrs s res s' l l0,
  Forall (fun x => x < n) (dn ++ xs) -> StronglySorted (fun a b => b < a) xs -> (forall x y, In x dn -> In y xs -> y < x) ->
  (forall y v, mget prev y = Some v -> In (EvMon y v (Ok tt)) l0) ->
  (forall y v, mget ptrs y = Some v -> exists x, In x dn /\ verOf ptrs0 x = v /\ y = List.last (pathOf x) x /\ (y = x \/ In y (pathOf x) /\ In (EvMon y v (Ok tt)) l0)) ->
  (forall x, In x dn -> (pathOf x = [] -> forall x', In x' (dn ++ xs) -> ~ In x (pathOf x')) ->
     keptAt ptrs0 prev ptrs x \/ droppedFor x (verOf ptrs0 x) l0) ->
  run P (contactAll c m ptrs0 xs prev ptrs) s = (Ok res, s', l) ->
  (forall y v, mget res y = Some v -> exists x, In x (dn ++ xs) /\ verOf ptrs0 x = v /\ y = List.last (pathOf x) x /\ (y = x \/ In y (pathOf x) /\ In (EvMon y v (Ok tt)) (l0 ++ l))) /\
  (forall x, In x (dn ++ xs) -> (pathOf x = [] -> forall x', In x' (dn ++ xs) -> ~ In x (pathOf x')) ->
     mget res (List.last (pathOf x) x) = Some (verOf ptrs0 x) \/ droppedFor x (verOf ptrs0 x) (l0 ++ l)).
Proof.
  intros Em Er. induction xs as [|x t IH]; intros dn prev ptrs s res s' l l0 HF HS Hlt HP1 HP2 HP3 H.
  - cbn in H. inversion H; subst. rewrite !app_nil_r in *. split; auto. intros x Hx Hc. destruct (HP3 x Hx Hc) as [(K & _)|K]; auto.
  - cbn [contactAll] in H. fold (verOf ptrs0 x) in H.
    apply run_bind_ok in H as ((upd & prev') & s1 & l1 & l2 & E1 & H & ->).
    assert (Hx : x < n). { rewrite Forall_forall in HF. apply HF. apply in_or_app. right. left. auto. }
    apply contactOne_ok in E1; auto. destruct E1 as (A & B & U).
    set (ptrs' := match upd with Some y => mput ptrs y (verOf ptrs0 x) | None => ptrs end) in *.
    assert (ED : dn ++ x :: t = (dn ++ [x]) ++ t) by (rewrite <- app_assoc; reflexivity).
    rewrite ED in *. rewrite app_assoc.
    inversion HS as [|? ? HS' HSx]; subst. rewrite Forall_forall in HSx.
    apply (IH (dn ++ [x]) prev' ptrs' s1 res s' l2 (l0 ++ l1)); auto.
    + intros a b Ha Hb. apply in_app_or in Ha as [Ha|[<-|[]]]; [apply Hlt; auto; right; auto|auto].
    + intros y v Hy. destruct (B y v Hy) as [Hb|Hb]; apply in_or_app; auto.
    + intros y v Hy. unfold ptrs' in Hy. destruct upd as [y0|].
      * destruct U as [EL U]. destruct (N.eq_dec y0 y) as [<-|Ne].
        -- rewrite mget_mput_eq in Hy. injection Hy as <-. exists x. split; [apply in_or_app; right; left; auto|]. split; auto. split; auto.
           destruct (pathOf x) as [|z p] eqn:EPx; [left; auto|]. right. rewrite EL.
           assert (In (List.last (z :: p) x) (z :: p)) by (apply last_in; discriminate). split; auto. apply in_or_app. right. apply U. auto.
        -- rewrite mget_mput_neq in Hy; auto. destruct (HP2 y v Hy) as (z & Hz & Ez & El & Hm). exists z. split; [apply in_or_app; auto|]. split; auto. split; auto.
           destruct Hm as [|[? ?]]; auto. right. split; auto. apply in_or_app; auto.
      * destruct (HP2 y v Hy) as (z & Hz & Ez & El & Hm). exists z. split; [apply in_or_app; auto|]. split; auto. split; auto.
        destruct Hm as [|[? ?]]; auto. right. split; auto. apply in_or_app; auto.
    + intros z Hz Hc. apply in_app_or in Hz as [Hz|[<-|[]]].
      * destruct (HP3 z Hz Hc) as [(K1 & K2)|K].
        -- left. split; [|destruct K2 as [|(v & K2)]; eauto].
           unfold ptrs'. destruct upd as [y0|]; auto. destruct U as [EL U]. rewrite mget_mput_neq; auto.
           intro Ey. assert (Hxz : x < z) by (apply Hlt; auto; left; auto).
           assert (Hzl : z <= List.last (pathOf z) z).
           { destruct (pathOf z) as [|u p] eqn:EPz; [cbn; lia|]. assert (In (List.last (u :: p) z) (u :: p)) by (apply last_in; discriminate).
             assert (z < n). { rewrite Forall_forall in HF. apply HF. rewrite <- app_assoc. apply in_or_app. auto. }
             destruct (pathOf_spec z H1) as [_ G]. rewrite EPz in G. apply G in H0. lia. }
           destruct (pathOf x) as [|u p] eqn:EPx.
           ++ cbn in EL. subst y0. lia.
           ++ assert (Hin : In y0 (u :: p)) by (rewrite EL; apply last_in; discriminate).
              destruct (U y0 Hin) as (U1 & _). rewrite Ey in U1. destruct K2 as [K2|(v & K2)]; [|congruence].
              rewrite K2 in Ey. cbn in Ey. subst y0. apply (Hc K2 x); [apply in_or_app; left; apply in_or_app; right; left; auto|]. rewrite EPx, <- Ey. auto.
        -- right. destruct K as [K|(y & v' & Hy & Hv & K)]; [left; auto|]. right. exists y, v'. repeat split; auto. apply in_or_app; auto.
      * unfold ptrs'. destruct upd as [y0|].
        -- left. destruct U as [EL U]. subst y0. split; [apply mget_mput_eq|].
           destruct (pathOf x) as [|u p] eqn:EPx; [auto|]. right. exists (verOf ptrs0 x). apply U. apply last_in. discriminate.
        -- right. destruct U as [U|(y & v' & Hy & Hv & U)]; [left; auto|]. right. exists y, v'. repeat split; auto.
           apply in_or_app. left. apply HP1. auto.
Qed.

Lemma keysDown_sorted m : StronglySorted (fun a b => b < a) (keysDown m).
Proof.
  unfold keysDown. set (l := nodup N.eq_dec (map fst m)).
  assert (ND : NoDup (nsort l)) by (eapply Permutation.Permutation_NoDup; [symmetry; apply nsort_perm|apply NoDup_nodup]).
  pose proof (nsort_sorted l) as HS. induction HS as [|x t HS IH F]; [constructor|].
  cbn [rev]. inversion ND; subst. specialize (IH H2). rewrite Forall_forall in F.
  assert (G : forall (p : list N), StronglySorted (fun a b => b < a) p -> (forall y, In y p -> x < y) -> StronglySorted (fun a b => b < a) (p ++ [x])).
  { clear. intros p H. induction H as [|y p H IH F]; intros G; cbn; [repeat constructor|]. constructor.
    - apply IH. intros. apply G. right; auto.
    - apply Forall_app. split; auto. constructor; auto. apply G. left; auto. }
  apply G; auto. intros y Hy. apply in_rev in Hy. specialize (F y Hy). assert (x <> y) by (intros ->; auto). lia.
Qed.

Lemma contact_ok m ptrs0 s m' s' l : mo_size m = n -> mo_rightmost m = ts (n - 1) -> mo_contact m = Some ptrs0 ->
  (forall x, mget ptrs0 x <> None -> x < n) ->
  run P (contactMonitor c m) s = (Ok m', s', l) ->
  let new := match mo_contact m' with Some p => p | None => [] end in
  (mo_size m' = mo_size m /\ mo_rightmost m' = mo_rightmost m /\ mo_owner m' = mo_owner m) /\
  (forall y v, mget new y = Some v -> exists x, mget ptrs0 x = Some v /\ (y = x \/ sanc n x y /\ x < y /\ In (EvMon y v (Ok tt)) l)) /\
  (forall x v, mget ptrs0 x = Some v ->
     ((forall y, sanc n x y -> y <= x) -> forall x', mget ptrs0 x' <> None -> ~ (sanc n x' x /\ x' < x)) ->
     (exists y, mget new y = Some v /\ (y = x \/ sanc n x y /\ x < y)) \/
     (exists d, distinguished n ts w d /\ x <= d) \/
     (exists y v', sanc n x y /\ x < y /\ v < v' /\ In (EvMon y v' (Ok tt)) l)).
Proof.
  intros Em Er Ec Hk H. unfold contactMonitor in H. rewrite Ec in H.
  apply run_bind_ok in H as (res & s1 & l1 & l2 & E1 & H & ->). cbn in H. injection H as <- <- <-. cbn zeta. cbn [mo_contact mo_size mo_rightmost mo_owner].
  assert (ER : match match res with [] => None | _ :: _ => Some res end with Some p => p | None => [] end = res) by (destruct res; auto).
  rewrite ER. clear ER. split; auto.
  assert (KI : forall x, In x (keysDown ptrs0) <-> mget ptrs0 x <> None).
  { intro x. rewrite keysDown_In. destruct (mget ptrs0 x) eqn:E.
    - split; [discriminate|]. intros _. apply mget_In in E. apply in_map_iff. eexists (x, _). split; [reflexivity|exact E].
    - apply mget_None in E. tauto. }
  destruct (contactAll_ok m ptrs0 (keysDown ptrs0) Em Er [] [] [] s res s1 l1 []) as [A B]; auto.
  - apply Forall_forall. intros x Hx. apply Hk, KI. auto.
  - apply keysDown_sorted.
  - intros x y [].
  - discriminate.
  - discriminate.
  - intros x [].
  - cbn [app] in *. rewrite app_nil_r. split.
    + intros y v Hy. destruct (A y v Hy) as (x & Hx & Ev & _ & Hm). apply KI in Hx. exists x. unfold verOf in Ev.
      destruct (mget ptrs0 x) as [v0|] eqn:Ex; [|congruence]. subst v0. split; auto. destruct Hm as [|[Hm1 Hm2]]; auto. right.
      destruct (pathOf_spec x) as [_ G]; [apply Hk; congruence|]. apply G in Hm1. tauto.
    + intros x v Ex Hc. assert (Hx : x < n) by (apply Hk; congruence). destruct (pathOf_spec x Hx) as [_ G].
      assert (Ev : verOf ptrs0 x = v) by (unfold verOf; rewrite Ex; auto). rewrite <- Ev.
      destruct (B x) as [K|K].
      * apply KI. congruence.
      * intros Ep x' Hx' Hin. apply KI in Hx'. assert (Hx'n : x' < n) by (apply Hk; auto).
        destruct (pathOf_spec x' Hx'n) as [_ G']. apply G' in Hin. apply (Hc) with (x' := x') in Hin; auto.
        intros y Hy. destruct (N.le_gt_cases y x); auto. assert (In y (pathOf x)) by (apply G; auto). rewrite Ep in H0. destruct H0.
      * left. exists (List.last (pathOf x) x). split; auto. destruct (pathOf x) as [|u p] eqn:EPx; [left; auto|]. right. apply G. apply last_in. discriminate.
      * right. destruct K as [K|(y & v' & Hy & Hv & K)]; [left; auto|]. right. exists y, v'. apply G in Hy. tauto.
Qed.

End Contact.
