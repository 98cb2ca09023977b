(** The statements of AlgProperties.v, put together. *)
From Verif Require Import Base BaseProofs LogMathModel TransMathModel TransMathSpec TransMathProofs TransMathProofs2 LaddersModel CodecModel AlgModel AlgSpec AlgProofs AlgProofs2 AlgProofs3 AlgProofs4 AlgProofs5.

Lemma c16_rightmost c L s : okLog L ->
  exists o, result (run (honest L) (rightmostDistinguished c (h_n L)) s) = Ok o /\
    greatestOf (distinguished (h_n L) (h_ts L) (pc_rmw c)) o.
Proof.
  intro HL. destruct (rightmost_spec c L HL s (fun _ => True)) as (o & R & G); [intros; exact I|].
  exists o. split; auto. eapply runs_result; eauto.
Qed.

Lemma c17_previous c L s : okLog L ->
  exists o, result (run (honest L) (previousRightmost c (h_n L)) s) = Ok o /\
    greatestOf (fun y => distinguished (h_n L) (h_ts L) (pc_rmw c) y /\ y < h_n L - 1) o /\
    Forall (fun e => exists x r, e = EvTs x r /\
      (x = h_n L - 1 \/ exists f, SFront 0 (h_n L - 1) f /\ In x f)) (events (run (honest L) (previousRightmost c (h_n L)) s)).
Proof.
  intro HL.
  set (Q := fun e => exists x r, e = EvTs x r /\ (x = h_n L - 1 \/ exists f, SFront 0 (h_n L - 1) f /\ In x f)).
  destruct (previousRightmost_spec c L HL s Q) as (o & R & G).
  { intros x Hx H. exists x, (Ok (h_ts L x)). split; auto. destruct H as [H|(_ & p & q & F)]; auto. right. exists (p ++ x :: q). split; auto.
    apply in_or_app. right. left. auto. }
  exists o. split; [eapply runs_result; eauto|]. split; auto. apply Forall_forall. intros e He. eapply (runs_events _ _ _ _ _ Q); eauto.
Qed.

(** Everything before the loop of the greatest-version search. *)
Lemma rightmost_loop_err {S} (P : provider S) c n fuel : forall rm x s m s' l,
  1 <= n < 2 ^ 64 -> (exists a len, x = sroot a len /\ SRange n a len /\ a + len = n /\ N.log2 len < N.of_nat fuel) ->
  run P (rightmost_loop c fuel n rm x) s = (Fail m, s', l) -> exists y m', In (EvTs y (Fail m')) l.
Proof.
  induction fuel as [|f IH]; intros rm x s m s' l Hn (a & len & -> & R & E & Hf) H; [discriminate|].
  cbn [rightmost_loop] in H. rewrite sub1_64 in H by auto.
  destruct (nav_len n a len Hn R) as (L1 & L2 & L3).
  destruct (N.eqb_spec (sroot a len) (n - 1)); [discriminate|].
  cbn [getTs pbind] in H. cbn [run] in H. destruct (pTs P s (sroot a len)) as [[t|m0|m0|] s1]; cbn [addEv] in H.
  - destruct (negb _); [discriminate|].
    assert (Hr : lsize len + 1 < len) by (unfold sroot in *; lia).
    rewrite (nav_right n a len Hn R Hr) in H. cbn [lift pbind] in H.
    destruct (run P (rightmost_loop c f n rm _) s1) as [[r s2] l2] eqn:ER. cbn in H. inversion H; subst.
    apply IH in ER as (y & m' & Hy); auto.
    + exists y, m'. right. auto.
    + eexists _, _. split; [reflexivity|]. split; [constructor; auto|]. split; [unfold sroot in *; lia|]. pose proof (rsize_log len Hr). lia.
  - inversion H; subst. exists (sroot a len), m. left. auto.
  - discriminate.
  - discriminate.
Qed.

Lemma rightmost_err {S} (P : provider S) c n s m s' l :
  n < 2 ^ 64 -> run P (rightmostDistinguished c n) s = (Fail m, s', l) -> exists y m', In (EvTs y (Fail m')) l.
Proof.
  intros Hn H. unfold rightmostDistinguished in H. destruct (N.eqb_spec n 0); [discriminate|].
  assert (Hn' : 1 <= n < 2 ^ 64) by lia.
  cbn [getTs pbind] in H. cbn [run] in H. destruct (pTs P s (sub64 n 1)) as [[t|m0|m0|] s1]; cbn [addEv] in H.
  - destruct (negb _); [discriminate|].
    destruct (run P (rightmost_loop c 66 n t (troot n)) s1) as [[r s2] l2] eqn:ER. cbn [addEv] in H. inversion H; subst.
    apply rightmost_loop_err in ER as (y & m' & Hy); auto.
    + exists y, m'. right. auto.
    + destruct (c09_entries n Hn') as (-> & _). exists 0, n. split; auto. split; [constructor|]. split; [lia|]. pose proof (log_fuel n 0 n Hn' (SR_root n)). lia.
  - inversion H; subst. exists (sub64 n 1), m. left. auto.
  - discriminate.
  - discriminate.
Qed.

Lemma rightmost_loop_noLadder {S} (P : provider S) c n fuel : forall rm x s r s' l,
  run P (rightmost_loop c fuel n rm x) s = (r, s', l) -> Forall (fun e => exists y t, e = EvTs y t) l.
Proof.
  induction fuel as [|f IH]; intros rm x s r s' l H; [inversion H; constructor|].
  cbn [rightmost_loop] in H. destruct (x =? sub64 n 1); [inversion H; constructor|].
  cbn [getTs pbind] in H. cbn [run] in H. destruct (pTs P s x) as [[t|m0|m0|] s1]; cbn [addEv] in H.
  - destruct (negb _); [inversion H; subst; repeat constructor; eauto|].
    destruct (tright x n) as [x'|m|m|]; cbn [lift pbind run addEv] in H; try (inversion H; subst; repeat constructor; eauto; fail).
    destruct (run P (rightmost_loop c f n rm x') s1) as [[r2 s2] l2] eqn:ER. cbn in H. inversion H; subst. constructor; eauto.
  - inversion H; subst; repeat constructor; eauto.
  - inversion H; subst; repeat constructor; eauto.
  - inversion H; subst; repeat constructor; eauto.
Qed.

Lemma rightmost_noLadder {S} (P : provider S) c n s r s' l :
  run P (rightmostDistinguished c n) s = (r, s', l) -> Forall (fun e => exists y t, e = EvTs y t) l.
Proof.
  intro H. unfold rightmostDistinguished in H. destruct (n =? 0); [inversion H; constructor|].
  cbn [getTs pbind] in H. cbn [run] in H. destruct (pTs P s (sub64 n 1)) as [[t|m0|m0|] s1]; cbn [addEv] in H.
  - destruct (negb _); [inversion H; subst; repeat constructor; eauto|].
    destruct (run P (rightmost_loop c 66 n t (troot n)) s1) as [[r2 s2] l2] eqn:ER. cbn [addEv] in H. inversion H; subst.
    constructor; eauto. eapply rightmost_loop_noLadder; eauto.
  - inversion H; subst; repeat constructor; eauto.
  - inversion H; subst; repeat constructor; eauto.
  - inversion H; subst; repeat constructor; eauto.
Qed.

Local Opaque rightmostDistinguished greatest_loop.

Lemma c19_partial c n ver S (P : provider S) s t s' l : n < 2 ^ 64 ->
  run P (greatestVersionSearch c ver n) s = (Ok t, s', l) ->
  (exists x m, In (EvTs x (Fail m)) l) \/
  ((exists l0, l = l0 ++ [EvLadder (sub64 n 1) ver true (Ok 0%Z)]) /\
   (forall x v o r, In (EvLadder x v o r) l -> v = ver /\ exists z, r = Ok z /\ z <> 1%Z)).
Proof.
  intros Hn H. unfold greatestVersionSearch in H. destruct (N.eqb_spec n 0); [discriminate|].
  apply run_bind_ok in H as (d & s1 & l1 & l2 & E1 & H & ->).
  rewrite run_catch in E1. rewrite run_bind in E1.
  destruct (run P (rightmostDistinguished c n) s) as [[r s2] l3] eqn:ER.
  destruct r as [o|m|m|]; cbn in E1; try discriminate.
  - inversion E1; subst. right.
    apply greatest_loop_ok in H as (l0 & -> & F).
    split; [exists ((l3 ++ []) ++ l0); rewrite <- !app_assoc; reflexivity|].
    intros x v o0 r Hin. apply in_app_or in Hin as [Hin|Hin].
    + apply rightmost_noLadder in ER. rewrite app_nil_r in Hin. rewrite Forall_forall in ER. apply ER in Hin as (? & ? & ?). discriminate.
    + rewrite Forall_forall in F. apply F in Hin as (x0 & r0 & E & Hne). inversion E; subst. split; auto. exists r0. split; auto.
  - inversion E1; subst. left. apply rightmost_err in ER as (y & m' & Hy); auto. exists y, m'. apply in_or_app. left. rewrite app_nil_r. auto.
Qed.

Lemma c20_greatest c L ver s : okLog L ->
  exists pre path o,
    greatestOf (distinguished (h_n L) (h_ts L) (pc_rmw c)) o /\
    SFront 0 (h_n L) (pre ++ path) /\
    hd_error path = Some (match o with Some d => d | None => sroot 0 (h_n L) end) /\
    let r := result (run (honest L) (greatestVersionSearch c ver (h_n L)) s) in
    (h_g L (h_n L - 1) = Z.of_N ver ->
       exists p t q, path = p ++ t :: q /\ r = Ok t /\ h_g L t = Z.of_N ver /\ Forall (fun y => (h_g L y < Z.of_N ver)%Z) p) /\
    (h_g L (h_n L - 1) <> Z.of_N ver ->
       exists msg, r = Fail msg /\ (h_g L (h_n L - 1) = (-1)%Z -> ver = 0 -> msg = ErrLabelNotFound)).
Proof.
  intro HL. destruct (greatest_honest c L HL ver s) as (pre & path & start & o & G & -> & F & Hd & GF).
  exists pre, path, o. split; auto. split; auto. split; auto. cbv zeta. unfold gfinish in GF.
  split; intro E.
  - rewrite (proj2 (Z.eqb_eq _ _) E) in GF. auto.
  - rewrite (proj2 (Z.eqb_neq _ _) E) in GF. auto.
Qed.

Lemma c22_partial c L ver s : okLog L ->
  let expired x := isExpired (pc_maxLife c) (h_ts L x) (h_ts L (h_n L - 1)) = true in
  let r := result (run (honest L) (fixedVersionSearch c ver (h_n L)) s) in
  ((forall x, x < h_n L -> expired x \/ (h_g L x < Z.of_N ver)%Z) -> r = Fail ErrLabelNotFound) /\
  (forall t, t < h_n L -> ~ expired t -> (Z.of_N ver <= h_g L t)%Z ->
     (forall y, y < t -> expired y \/ (h_g L y < Z.of_N ver)%Z) ->
     (exists x, r = Ok x /\ t <= x < h_n L /\ ~ expired x /\ (h_g L x = Z.of_N ver \/ x = t)) \/
     (r = Fail ErrLabelExpired /\ (exists y, y < h_n L /\ expired y) /\
      forall d, distinguished (h_n L) (h_ts L) (pc_rmw c) d -> ~ expired d -> t <= d)).
Proof.
  intro HL. cbv zeta. split.
  - intro H. apply (fixed_spec c L HL ver None s). intros y Hy. unfold hit, expd. destruct (H y Hy) as [->|Hg]; auto.
    rewrite (proj2 (Z.leb_gt _ _) Hg). apply andb_false_r.
  - intros t Ht He Hg Hlo. pose proof (fixed_spec c L HL ver (Some t) s) as G.
    assert (F : first (h_n L) (hit c L ver) (Some t)).
    { split; auto. split.
      - unfold hit, expd. apply not_true_is_false in He. rewrite He. cbn. apply Z.leb_le. auto.
      - intros y Hy. unfold hit, expd. destruct (Hlo y Hy) as [->|Hg']; auto. rewrite (proj2 (Z.leb_gt _ _) Hg'). apply andb_false_r. }
    specialize (G F). destruct G as [(x & E & Hx & Hh & Hor)|(E & (y & Hy & Ey) & HD)].
    + left. exists x. split; auto. split; auto. split; auto. unfold hit in Hh. apply andb_true_iff in Hh as [Hh _]. apply negb_true_iff in Hh.
      unfold expd in Hh. congruence.
    + right. split; auto. split; [exists y; auto|]. intros d Hd Ed. destruct (N.le_gt_cases t d); auto. exfalso.
      eapply HD; eauto. apply not_true_is_false. auto.
Qed.

Lemma c21_fixed c L ver s : okLog L ->
  (forall x, x < h_n L -> isExpired (pc_maxLife c) (h_ts L x) (h_ts L (h_n L - 1)) = false) ->
  let r := result (run (honest L) (fixedVersionSearch c ver (h_n L)) s) in
  ((Z.of_N ver <= h_g L (h_n L - 1))%Z ->
     exists x, r = Ok x /\ x < h_n L /\
       (h_g L x = Z.of_N ver \/ (Z.of_N ver <= h_g L x)%Z /\ forall y, y < x -> (h_g L y < Z.of_N ver)%Z)) /\
  ((h_g L (h_n L - 1) < Z.of_N ver)%Z -> r = Fail ErrLabelNotFound).
Proof.
  intros HL HE. cbv zeta. destruct (c22_partial c L ver s HL) as [A B].
  assert (Hn : 1 <= h_n L < 2 ^ 64) by apply HL.
  split.
  - intro Hg. destruct (first_ex (fun x => (Z.of_N ver <=? h_g L x)%Z) (h_n L)) as [[t|] F].
    + destruct F as (F1 & F2 & F3). apply Z.leb_le in F2. destruct (B t F1) as [(x & E & Hx & _ & Hor)|(_ & (y & Hy & Ey) & _)]; auto.
      * rewrite HE; auto.
      * intros y Hy. right. specialize (F3 y Hy). apply Z.leb_gt in F3. auto.
      * exists x. split; auto. split; [lia|]. destruct Hor as [| ->]; auto. right. split; auto. intros y Hy. specialize (F3 y Hy). apply Z.leb_gt in F3. auto.
      * rewrite HE in Ey; auto. discriminate.
    + cbn in F. specialize (F (h_n L - 1)). apply Z.leb_gt in F; lia.
  - intro Hg. apply A. intros x Hx. right. assert (h_g L x <= h_g L (h_n L - 1))%Z by (apply HL; lia). lia.
Qed.

Lemma c58_owner c m S (P : provider S) s : tame P -> 1 <= mo_size m < 2 ^ 64 ->
  exists r m', result (run P (ownerMonitor c m) s) = Ok (r, m') /\
  match r with
  | inl _ => m' = m
  | inr _ => exists os os', mo_owner m = Some os /\ mo_owner m' = Some os' /\ os_starting os <= os_starting os' /\
      (os_starting os' = os_starting os \/ os_starting os' < mo_size m) /\
      mo_rightmost m' = mo_rightmost m /\ mo_size m' = mo_size m /\ mo_contact m' = mo_contact m
  end.
Proof.
  intros HT Hn. pose proof (wp_run P _ HT _ s (ownerMonitor_safe c m Hn)) as H.
  destruct (result (run P (ownerMonitor c m) s)) as [[r m']|e|e|] eqn:E; try tauto.
  - exists r, m'. split; auto.
  - exfalso. revert E. unfold ownerMonitor. destruct (mo_owner m); [|discriminate].
    rewrite run_catch, run_bind. destruct (run P (ownerMonitor_rec c 66 _ _ _ _ _) s) as [[[?|?|?|] ?] ?]; cbn; discriminate.
Qed.

Lemma c65_total c S (P : provider S) s : tame P ->
  let fine {A} (p : prog A) := match result (run P p s) with Ok _ | Fail _ => True | _ => False end in
  (forall n, n < 2 ^ 64 -> fine (rightmostDistinguished c n) /\ fine (previousRightmost c n) /\
     (forall now m, fine (updateView c now n m)) /\
     (forall ver, fine (greatestVersionSearch c ver n) /\ fine (fixedVersionSearch c ver n))) /\
  (forall m, 1 <= mo_size m < 2 ^ 64 ->
     ((forall ptrs x v, mo_contact m = Some ptrs -> In (x, v) ptrs -> x < mo_size m) -> fine (contactMonitor c m)) /\
     (forall starting vers, fine (ownerInit c m starting vers)) /\
     fine (ownerMonitor c m) /\
     (forall pos versions, (forall os, mo_owner m = Some os -> (greatestVersion os + versions < 2147483647)%Z) ->
        fine (update c m pos versions))).
Proof.
  intros HT fine.
  assert (G : forall A (Q : A -> Prop) (p : prog A), wp Q p -> fine A p).
  { intros A Q p H. pose proof (wp_run P Q HT p s H) as R. unfold fine. destruct (result (run P p s)); auto. }
  split.
  - intros n Hn. split; [eapply G, rightmost_safe; auto|]. split; [eapply G, previous_safe; auto|].
    split; [intros; eapply G, updateView_safe; auto|]. intro ver. split; [eapply G, greatest_safe; auto|eapply G, fixed_safe; auto].
  - intros m Hn. split; [intros; eapply G, contact_safe; auto|]. split; [intros; eapply G, ownerInit_safe; auto|].
    split; [eapply G, ownerMonitor_safe; auto|]. intros. eapply G, update_safe; auto.
Qed.
