From Verif Require Import Base BaseProofs LogMathModel LogMathSpec NodeMathProofs LogMathProofs LogMathProofs2 LogTreeModel LogTreeSpec LogTreeProofs LogVerifyProofs.
From Coq Require Import Sorted.

Lemma copath_setup leaves n nP m :
  1 <= n <= two63 -> Forall (fun i => i < n) leaves -> optSize n nP -> optSize n m ->
  exists pP pm pz, optParts nP pP /\ optParts m pm /\
    optSubtrees nP = Ok (map nodeOf pP) /\
    batchCopath leaves n nP m = Ok (map nodeOf pz) /\
    Forall (fun z => Range n (fst z) (snd z) /\ pow2 (snd z)) (map (fun i => (i, 1)) leaves ++ pP ++ pm ++ pz) /\
    (forall Q, sset Q -> (forall y, In y Q <-> In y (map nodeOf (map (fun i => (i, 1)) leaves ++ pm ++ pz))) ->
      Compl 0 n Q /\ forall z, In z (map (fun i => (i, 1)) leaves ++ pP ++ pm) -> Vis 0 n Q (nodeOf z)).
Proof.
  intros Hn Hl HP Hm.
  destruct (batchCopath_cover leaves n nP m Hn Hl HP Hm) as (pP & pm & pz & zs & OP & Om & E & _ & _ & FR & _ & Z & _ & _).
  destruct (batchCopath_inputs leaves n nP m pP pm) as [F E2]; auto.
  destruct (optSubtrees_spec n nP) as (pP' & EP & OP'); [lia|auto|].
  destruct (optSubtrees_spec n m) as (pm' & Em & Om'); [lia|auto|].
  assert (pP' = pP) by (destruct nP; cbn [optParts] in OP, OP'; [eapply Parts_fun; eauto|congruence]).
  assert (pm' = pm) by (destruct m; cbn [optParts] in Om, Om'; [eapply Parts_fun; eauto|congruence]).
  subst pP' pm'.
  exists pP, pm, pz. split; [auto|]. split; [auto|]. split; [auto|]. split; [auto|]. split.
  - rewrite app_assoc, app_assoc. apply Forall_app. split; [now rewrite <- app_assoc|].
    rewrite Forall_forall in *. intros z Hz. apply Z in Hz as [Hz1 Hz2]. auto.
  - unfold batchCopath in E. pose proof (root_level_fuel n Hn) as HF. revert HF E.
    generalize 66%nat as fuel. intros fuel HF E. rewrite EP, Em in E. cbn [bind] in E. rewrite E2 in E.
    destruct (batchCopath_vis fuel n (root n) 0 n
              (dedupSort (map nodeOf (map (fun i => (i, 1)) leaves ++ pP ++ pm))) (map nodeOf pP) Hn)
      as (P & EPP & SP & HPP & CP).
    + now apply covers_root.
    + exact HF.
    + apply dedupSort_sset.
    + now apply (req_inNodes n).
    + rewrite E in EPP. injection EPP as <-.
      intros Q SQ HQ. destruct (CP Q SQ) as [C V].
      * intros y Hy. apply HQ in Hy. rewrite dedupSort_In. rewrite !map_app, !in_app_iff in *. tauto.
      * intros y Hy. apply HQ. rewrite !map_app, !in_app_iff. tauto.
      * intros y Hy Hni. apply HQ. rewrite dedupSort_In in Hy. rewrite !map_app, !in_app_iff in *. tauto.
      * split; auto. intros z Hz. apply V. rewrite dedupSort_In. now apply in_map.
Qed.

Lemma lenN_inj {A B} (a : list A) (b : list B) : lenN a = lenN b -> List.length a = List.length b.
Proof. unfold lenN. lia. Qed.

Lemma combine_fst {A B} (a : list A) (b : list B) : lenN a = lenN b -> map fst (combine a b) = a.
Proof.
  intro E. apply lenN_inj in E. revert b E. induction a as [|x a IH]; intros [|y b] E; cbn in *; try lia; auto.
  f_equal. apply IH. lia.
Qed.

Lemma mapM_nodeAt m l : (forall y, In y l -> has m y) ->
  exists vs, mapM (nodeAt m) l = Ok vs /\ Forall2 (fun y v => mget m y = Some v) l vs.
Proof.
  induction l as [|y l IH]; intro K; cbn [mapM]; [eexists; split; [reflexivity|constructor]|].
  destruct (K y) as (v & E); [now left|]. unfold nodeAt at 1. rewrite E. cbn [bind].
  destruct IH as (vs & Ev & F). { intros z Hz. apply K. now right. }
  rewrite Ev. cbn [bind]. eexists. split; [reflexivity|]. constructor; auto.
Qed.

Lemma Forall2_map_l {A B C} (f : A -> B) (P : B -> C -> Prop) l l' :
  Forall2 P (map f l) l' -> Forall2 (fun a c => P (f a) c) l l'.
Proof.
  revert l'. induction l as [|a l IH]; intros l' F; inversion F; subst; constructor; auto.
Qed.

Lemma mul2_small n i : n <= two63 -> i < n -> mul64 2 i = 2 * i.
Proof. intros A B. rewrite mul64_small; [lia|]. unfold two63, two64 in *. lia. Qed.

Lemma In_combine_map {A B C} (f : A -> C) (a : list A) (b : list B) x y :
  In (x, y) (combine (map f a) b) <-> exists z, x = f z /\ In (z, y) (combine a b).
Proof.
  revert b. induction a as [|u a IH]; intros [|w b]; cbn [map combine In]; try (split; [tauto|intros (? & _ & [])]).
  rewrite IH. split.
  - intros [E|(z & -> & Hz)]; [injection E as <- <-; eauto|eauto].
  - intros (z & -> & [E|Hz]); [injection E as -> ->; auto|right; eauto].
Qed.

Lemma Forall2_impl_In {A B} (P Q : A -> B -> Prop) l l' :
  (forall a b, In a l -> P a b -> Q a b) -> Forall2 P l l' -> Forall2 Q l l'.
Proof.
  intros I F. induction F; constructor.
  - apply I; auto. now left.
  - apply IHF. intros; apply I; auto. now right.
Qed.

Section Hash.
Variable H : bytes -> option bytes.
Variable hs : N.
Hypothesis Hsized : sized H hs.
Hypothesis Hhs : 0 < hs.

(** A verifier as produced by [newVerifier] or [retain]. *)
Definition wfv (v : verifier) : Prop :=
  match v_prev v with
  | None => v_subtrees v = [] /\ v_values v = []
  | Some k => 1 <= k <= two63 /\ exists pm, Parts 0 k pm /\ v_subtrees v = map nodeOf pm /\ lenN (v_values v) = lenN pm
  end.

Lemma wfv_new : wfv newVerifier. Proof. unfold wfv. cbn. auto. Qed.

Lemma wfv_retain k fs v : retain hs k fs = Ok v -> wfv v /\ v_prev v = Some k /\ v_values v = fs /\ Forall (fun x : bytes => lenN x = hs) fs.
Proof.
  clear Hsized Hhs. unfold retain. rewrite maxTreeSize_two63. destruct (N.eqb_spec k 0); [discriminate|].
  destruct (N.ltb_spec two63 k); [discriminate|]. cbn [orb].
  destruct (fullSubtrees_root k) as (pm & E & P); [lia|]. rewrite E. cbn [bind].
  destruct (N.eqb_spec (lenN fs) (lenN (map nodeOf pm))) as [El|]; [|discriminate]. cbn [negb].
  destruct (existsb (wrongSize hs) fs) eqn:Es; [discriminate|]. intros [= <-]. cbn.
  split; [|split; [auto|split; [auto|now apply sizes_ok_inv]]]. unfold wfv. cbn. split; [lia|]. exists pm.
  split; [auto|]. split; [auto|]. now rewrite map_len in El.
Qed.

(** The run of the verifier, up to the final node map. *)
Lemma evaluateProof_cases v entries n nP values proof :
  wfv v -> match v_prev v with Some k => k <= n | None => True end ->
  (exists msg, evaluateProof H hs v entries n nP values proof = Fail msg) \/
  (exists fs ad m4 Q pn pP pm,
     evaluateProof H hs v entries n nP values proof = Ok (fs, ad) /\
     1 <= n <= two63 /\ Forall (fun i => i < n) entries /\ lenN entries = lenN values /\ optSize n nP /\
     Parts 0 n pn /\ optParts nP pP /\ optParts (v_prev v) pm /\
     sizedMap hs m4 /\ Done H m4 0 n Q /\ Compl 0 n Q /\ perfect n Q /\
     (forall i w, In (i, w) (combine entries values) -> mget m4 (2 * i) = Some w) /\
     Forall2 (fun z w => mget m4 (nodeOf z) = Some w) pm (v_values v) /\
     Forall2 (fun z w => mget m4 (nodeOf z) = Some w) pn fs /\
     Forall2 (fun z w => mget m4 (nodeOf z) = Some w) pP ad /\
     (forall z, In z (map (fun i => (i, 1)) entries ++ pP ++ pm) -> Vis 0 n Q (nodeOf z)) /\
     (forall z, In z pn -> Vis 0 n Q (nodeOf z))).
Proof.
  intros W Hprev. unfold evaluateProof. rewrite maxTreeSize_two63.
  destruct (N.eqb_spec n 0); [left; eexists; reflexivity|]. destruct (N.ltb_spec two63 n); [left; eexists; reflexivity|]. cbn [orb].
  assert (Hn : 1 <= n <= two63) by lia.
  destruct (badAdditional n nP) eqn:Eb; [left; eexists; reflexivity|].
  assert (HnP : optSize n nP).
  { destruct nP as [k|]; cbn in *; [|auto]. destruct (N.eqb_spec k 0); [discriminate|]. destruct (N.ltb_spec n k); [discriminate|]. lia. }
  destruct (N.eqb_spec (lenN entries) (lenN values)) as [Elen|]; [|left; eexists; reflexivity]. cbn [negb].
  destruct (existsb (fun x => n <=? x) entries) eqn:Ee; [left; eexists; reflexivity|].
  assert (He : Forall (fun i => i < n) entries).
  { apply Forall_forall. intros i Hi. destruct (N.lt_ge_cases i n); auto.
    enough (existsb (fun x => n <=? x) entries = true) by congruence. apply existsb_exists. exists i. split; auto. now apply N.leb_le. }
  assert (Hm : optSize n (v_prev v)).
  { unfold wfv in W. destruct (v_prev v); cbn; auto. lia. }
  destruct (copath_setup entries n nP (v_prev v) Hn He HnP Hm) as (pP & pm & pz & OP & Om & EP & EC & F & HQ).
  rewrite EC. cbn [bind]. destruct (N.eqb_spec (lenN proof) (lenN (map nodeOf pz))) as [Ep|]; [|left; eexists; reflexivity]. cbn [negb].
  assert (Em : v_subtrees v = map nodeOf pm /\ lenN (v_values v) = lenN pm).
  { unfold wfv in W. destruct (v_prev v) as [k|]; cbn in Om.
    - destruct W as (_ & pm' & P' & E1 & E2). rewrite (Parts_fun _ _ _ _ Om P'). auto.
    - subst pm. destruct W as [-> ->]. auto. }
  destruct Em as [Em1 Em2].
  assert (S0 : sizedMap hs []) by (intros y w E; discriminate).
  destruct (addAll_cases hs n Hn (combine (map (mul64 2) entries) values) [] S0)
    as [(m1 & E1 & X1 & S1 & G1 & K1 & _)|(msg & E1)]; rewrite E1; cbn [bind]; [|left; eexists; reflexivity].
  destruct (addAll_cases hs n Hn (combine (v_subtrees v) (v_values v)) m1 S1)
    as [(m2 & E2 & X2 & S2 & G2 & K2 & _)|(msg & E2)]; rewrite E2; cbn [bind]; [|left; eexists; reflexivity].
  destruct (addAll_cases hs n Hn (combine (map nodeOf pz) proof) m2 S2)
    as [(m3 & E3 & X3 & S3 & G3 & K3 & _)|(msg & E3)]; rewrite E3; cbn [bind]; [|left; eexists; reflexivity].
  set (Q := dedupSort (map fst m3)).
  assert (HQ1 : forall y, In y Q <-> In y (map nodeOf (map (fun i => (i, 1)) entries ++ pm ++ pz))).
  { intro y. unfold Q. rewrite dedupSort_In, <- has_In, K3, K2, K1.
    rewrite (combine_fst (map nodeOf pz)) by congruence.
    rewrite (combine_fst (v_subtrees v)) by (rewrite Em1, map_len; congruence).
    rewrite (combine_fst (map (mul64 2) entries)) by (rewrite map_len; congruence).
    rewrite !map_app, !in_app_iff, Em1, map_map.
    replace (map (fun x => nodeOf (x, 1)) entries) with (map (mul64 2) entries).
    - split; [intros [?|[?|[?|(w & E)]]]; auto; discriminate|tauto].
    - apply map_ext_in. intros i Hi. rewrite Forall_forall in He. rewrite nodeOf_pair.
      destruct (leaf_Range n i Hn (He i Hi)) as [_ ->]. apply (mul2_small n); auto. }
  destruct (HQ Q (dedupSort_sset _) HQ1) as [CQ VQ].
  assert (HK : forall y, In y Q -> has m3 y).
  { intros y Hy. unfold Q in Hy. rewrite dedupSort_In in Hy. now apply has_In. }
  assert (PQ : perfect n Q).
  { intros y Hy. apply HQ1 in Hy. apply in_map_iff in Hy as ([b l] & <- & Hz). exists b, l. rewrite nodeOf_pair.
    rewrite Forall_forall in F. destruct (F (b, l)) as [R Hp]; [|auto]. rewrite !in_app_iff in *. tauto. }
  destruct (evaluate_cases H hs Hhs n Hn 0 n Q CQ 66%nat (root n) m3 (covers_root n Hn) (root_level_fuel n Hn) HK S3)
    as [(m4 & E4 & X4 & S4 & D4)|(msg & E4)]; rewrite E4; cbn [bind]; [|left; eexists; reflexivity].
  destruct (fullSubtrees_root n Hn) as (pn & En & Pn). rewrite En. cbn [bind].
  assert (Vn : forall z, In z pn -> Vis 0 n Q (nodeOf z)).
  { intros z Hz. eapply (Parts_Vis n Hn 0 n Q pn); eauto using R_root. }
  assert (Kn : forall y, In y (map nodeOf pn) -> has m4 y).
  { intros y Hy. apply in_map_iff in Hy as ([b l] & <- & Hz).
    pose proof (Parts_Range n 0 n pn Hn (R_root n) Pn) as FR. pose proof (Parts_pow2 _ _ _ Pn) as FP.
    rewrite Forall_forall in FR, FP.
    exact (Vis_has H n Hn m4 0 n Q D4 (R_root n) (nodeOf (b, l)) b l (Vn _ Hz) eq_refl (FR _ Hz) (FP _ Hz)). }
  destruct (mapM_nodeAt m4 (map nodeOf pn) Kn) as (fs & Ef & Ff). rewrite Ef. cbn [bind].
  rewrite EP. cbn [bind].
  assert (KP : forall y, In y (map nodeOf pP) -> has m4 y).
  { intros y Hy. apply in_map_iff in Hy as ([b l] & <- & Hz). rewrite Forall_forall in F.
    destruct (F (b, l)) as [R Hp]; [rewrite !in_app_iff; tauto|].
    refine (Vis_has H n Hn m4 0 n Q D4 (R_root n) (nodeOf (b, l)) b l (VQ _ _) eq_refl R Hp). rewrite !in_app_iff. tauto. }
  destruct (mapM_nodeAt m4 (map nodeOf pP) KP) as (ad & Ea & Fa). rewrite Ea. cbn [bind].
  right. exists fs, ad, m4, Q, pn, pP, pm. split; [auto|]. split; [auto|]. split; [auto|]. split; [auto|]. split; [auto|].
  split; [auto|]. split; [auto|]. split; [auto|]. split; [auto|]. split; [auto|]. split; [auto|]. split; [auto|].
  split; [|split; [|split; [|split]]].
  - intros i w Hi. apply X4, X3, X2. rewrite Forall_forall in He.
    rewrite <- (mul2_small n i); [|lia|apply He; eapply in_combine_l; eauto].
    apply (proj1 (G1 (mul64 2 i) w ltac:(apply In_combine_map; eauto))).
  - clear -Em1 Em2 G2 X3 X4. rewrite Em1 in G2.
    assert (G : forall z w, In (z, w) (combine pm (v_values v)) -> mget m4 (nodeOf z) = Some w).
    { intros z w Hz. apply X4, X3. apply (proj1 (G2 (nodeOf z) w ltac:(apply In_combine_map; eauto))). }
    clear G2 Em1. apply lenN_inj in Em2. revert Em2 G. generalize (v_values v) as vs. induction pm as [|z pm IH]; intros [|w vs] E G; cbn in E; try lia; constructor.
    + apply G. now left.
    + apply IH; [lia|]. intros z' w' Hz. apply G. now right.
  - apply Forall2_map_l in Ff. exact Ff.
  - apply Forall2_map_l in Fa. exact Fa.
  - split; auto.
Qed.

Lemma logRoot_Val m n pn fs w : 1 <= n <= two63 -> sizedMap hs m -> Parts 0 n pn ->
  Forall2 (fun z v => mget m (nodeOf z) = Some v) pn fs -> logRoot H hs n fs = Ok w -> Val H m 0 n w.
Proof.
  intros Hn SM P F. unfold logRoot. rewrite maxTreeSize_two63.
  destruct (N.eqb_spec n 0); [lia|]. destruct (N.ltb_spec two63 n); [lia|]. cbn [orb].
  destruct (fullSubtrees_root n Hn) as (pn' & E & P'). rewrite (Parts_fun _ _ _ _ P' P) in E. rewrite E. cbn [bind].
  destruct (negb _); [discriminate|]. destruct (existsb _ _); [discriminate|].
  destruct (rollup_Val H hs Hsized Hhs n Hn m 0 n pn fs SM (R_root n) P F) as (z & v & t & ER & W & _).
  rewrite ER. destruct (rollup H t _) as [[lf u]| | |]; try discriminate. cbn. intros [= <-].
  apply (W _ _ eq_refl).
Qed.

(** Soundness of the whole verifier. *)
Lemma evaluateProof_sound v entries n nP values proof fs ad L r :
  collisionFree H -> wfv v -> match v_prev v with Some k => k <= n | None => True end ->
  lenN L = n -> Forall (fun e : bytes => lenN e = hs) L ->
  evaluateProof H hs v entries n nP values proof = Ok (fs, ad) ->
  logRoot H hs n fs = Ok r -> Mth H L r ->
  Forall2 (fun i w => nth_error L (N.to_nat i) = Some w) entries values /\
  FullValues H L n fs /\
  match nP with Some k => FullValues H L k ad | None => ad = [] end /\
  match v_prev v with Some k => FullValues H L k (v_values v) | None => True end.
Proof.
  intros CF W Hprev EL FL E ER M.
  destruct (evaluateProof_cases v entries n nP values proof W Hprev)
    as [(msg & E')|(fs' & ad' & m4 & Q & pn & pP & pm & E' & Hn & He & Elen & HnP & Pn & OP & Om & SM & D & C & PQ & A1 & A2 & A3 & A4 & V1 & V2)];
    rewrite E in E'; [discriminate|]. injection E' as <- <-.
  pose proof (logRoot_Val m4 n pn fs r Hn SM Pn A3 ER) as VR.
  assert (NR : NodeVal H L 0 n r) by (unfold NodeVal; rewrite <- EL, slice_all; auto).
  pose proof (evaluate_sound H hs Hsized Hhs n Hn L m4 0 n Q CF EL FL SM D PQ (R_root n) r VR NR) as G.
  assert (GP : forall k parts vs, 1 <= k <= n -> Parts 0 k parts ->
     (forall z, In z parts -> Vis 0 n Q (nodeOf z)) ->
     Forall2 (fun z w => mget m4 (nodeOf z) = Some w) parts vs -> FullValues H L k vs).
  { intros k parts vs Hk P HV F. exists parts. split; auto.
    pose proof (Parts_Range_mono k n parts Hk ltac:(lia) P) as FR. rewrite Forall_forall in FR.
    eapply Forall2_impl_In; [|exact F]. intros z w Hz Ew. destruct (FR z Hz) as [R Hp].
    destruct (G (nodeOf z) (fst z) (snd z)) as (w' & Ew' & NV); auto. congruence. }
  split; [|split; [|split]].
  - assert (G2 : forall i w, In (i, w) (combine entries values) -> nth_error L (N.to_nat i) = Some w).
    { intros i w Hi. pose proof (in_combine_l _ _ _ _ Hi) as Hie. rewrite Forall_forall in He. specialize (He i Hie).
      destruct (leaf_Range n i Hn He) as [R Ei].
      destruct (G (2 * i) i 1) as (w' & Ew' & NV); auto.
      - specialize (V1 (i, 1)). rewrite nodeOf_pair, Ei in V1. apply V1. apply in_or_app. left. apply in_map_iff. eauto.
      - exists 0. reflexivity.
      - rewrite (A1 _ _ Hi) in Ew'. injection Ew' as <-. apply (NodeVal_one_inv H L); auto. lia. }
    apply lenN_inj in Elen. clear -G2 Elen. revert values Elen G2. induction entries as [|i entries IH]; intros [|w values] E G; cbn in E; try lia; constructor.
    + apply G. now left.
    + apply IH; [lia|]. intros i' w' Hi. apply G. now right.
  - apply (GP n pn fs); auto; lia.
  - destruct nP as [k|]; cbn [optParts optSize] in *.
    + apply (GP k pP ad); auto. intros z Hz. apply V1. rewrite !in_app_iff. auto.
    + subst pP. inversion A4. auto.
  - unfold wfv in W. destruct (v_prev v) as [k|]; cbn [optParts] in *; auto.
    apply (GP k pm (v_values v)); auto; [lia|]. intros z Hz. apply V1. rewrite !in_app_iff. auto.
Qed.

(** Completeness. *)
Lemma truthful_parts L m n k parts fs : 1 <= k <= n -> n <= two63 -> truthful H n L m -> Parts 0 k parts ->
  Forall2 (fun z w => mget m (nodeOf z) = Some w) parts fs -> FullValues H L k fs.
Proof.
  intros Hk Hn T P F. exists parts. split; auto.
  pose proof (Parts_Range_mono k n parts Hk Hn P) as FR. rewrite Forall_forall in FR.
  eapply Forall2_impl_In; [|exact F]. intros z w Hz Ew. destruct (FR z Hz) as [R _]. apply T; auto.
Qed.

Lemma evaluateProof_complete v entries nP values proof L r cp :
  1 <= lenN L <= two63 -> Forall (fun e : bytes => lenN e = hs) L -> Mth H L r ->
  wfv v -> match v_prev v with Some k => k <= lenN L /\ FullValues H L k (v_values v) | None => True end ->
  Forall2 (fun i w => nth_error L (N.to_nat i) = Some w) entries values ->
  match nP with Some k => 1 <= k <= lenN L | None => True end ->
  batchCopath entries (lenN L) nP (v_prev v) = Ok cp ->
  Forall2 (fun x w => forall a len, Range (lenN L) a len -> nodeId a len = x -> NodeVal H L a len w) cp proof ->
  exists fs ad, evaluateProof H hs v entries (lenN L) nP values proof = Ok (fs, ad) /\
    FullValues H L (lenN L) fs /\
    match nP with Some k => FullValues H L k ad | None => ad = [] end.
Proof.
  intros Hn FL M W HR FE HnP EC FP.
  pose proof (NodeVal_Range H L r Hn M) as AV.
  remember (lenN L) as n eqn:EL. symmetry in EL.
  assert (He : Forall (fun i => i < n) entries).
  { clear -FE EL. induction FE as [|i w en vs E F IH]; constructor; auto.
    assert (HN : nth_error L (N.to_nat i) <> None) by (rewrite E; discriminate). apply nth_error_Some in HN. unfold lenN in EL. lia. }
  assert (Hm : optSize n (v_prev v)).
  { unfold wfv in W. destruct (v_prev v); cbn [optSize]; auto. lia. }
  assert (HP : optSize n nP) by (destruct nP; cbn [optSize]; auto).
  destruct (copath_setup entries n nP (v_prev v) Hn He HP Hm) as (pP & pm & pz & OP & Om & EP & EC' & F & HQ).
  rewrite EC in EC'. injection EC' as ->.
  assert (Hprev : match v_prev v with Some k => k <= n | None => True end) by (destruct (v_prev v); tauto).
  unfold evaluateProof. rewrite maxTreeSize_two63.
  destruct (N.eqb_spec n 0); [lia|]. destruct (N.ltb_spec two63 n); [lia|]. cbn [orb].
  replace (badAdditional n nP) with false.
  2:{ destruct nP as [k|]; cbn [badAdditional]; [|auto]. rewrite maxTreeSize_two63.
      destruct (N.eqb_spec k 0); [lia|]. destruct (N.ltb_spec n k); [lia|]. destruct (N.ltb_spec two63 k); [lia|auto]. }
  rewrite <- (Forall2_len _ _ _ FE), N.eqb_refl. cbn [negb].
  replace (existsb (fun x => n <=? x) entries) with false.
  2:{ symmetry. apply not_true_iff_false. intro Ee. apply existsb_exists in Ee as (i & Hi & Ei).
      rewrite Forall_forall in He. specialize (He i Hi). apply N.leb_le in Ei. lia. }
  rewrite EC. cbn [bind]. rewrite <- (Forall2_len _ _ _ FP), N.eqb_refl. cbn [negb].
  assert (Em : v_subtrees v = map nodeOf pm /\ lenN (v_values v) = lenN pm).
  { unfold wfv in W. destruct (v_prev v) as [k|]; cbn [optParts] in Om.
    - destruct W as (_ & pm' & P' & E1 & E2). rewrite (Parts_fun _ _ _ _ Om P'). auto.
    - subst pm. destruct W as [-> ->]. auto. }
  destruct Em as [Em1 Em2].
  assert (T0 : truthful H n L []) by (intros b l w R E; discriminate).
  assert (S0 : sizedMap hs []) by (intros y w E; discriminate).
  rewrite Forall_forall in F.
  destruct (addAll_true H hs Hsized n Hn L (combine (map (mul64 2) entries) values) FL [] T0) as (m1 & E1 & T1 & _).
  { apply Forall_forall. intros [x w] Hx. apply In_combine_map in Hx as (i & -> & Hi). cbn [fst snd].
    pose proof (in_combine_l _ _ _ _ Hi) as Hie. rewrite Forall_forall in He. specialize (He i Hie).
    destruct (leaf_Range n i Hn He) as [R Ei]. exists i, 1. split; [auto|]. rewrite (mul2_small n) by (auto; lia).
    split; [auto|]. apply NodeVal_one. clear -FE Hi.
    induction FE as [|i' w' en vs E F IH]; [destruct Hi|]. destruct Hi as [Ei|Hi]; [injection Ei as <- <-; auto|auto]. }
  destruct (addAll_true H hs Hsized n Hn L (combine (v_subtrees v) (v_values v)) FL m1 T1) as (m2 & E2 & T2 & _).
  { apply Forall_forall. intros [x w] Hx. rewrite Em1 in Hx. apply In_combine_map in Hx as ([b l] & -> & Hi). cbn [fst snd].
    pose proof (in_combine_l _ _ _ _ Hi) as Hie. exists b, l. rewrite nodeOf_pair.
    destruct (F (b, l)) as [R _]; [rewrite !in_app_iff; tauto|]. split; [auto|]. split; [auto|].
    unfold wfv in W. destruct (v_prev v) as [k|]; cbn [optParts] in Om; [|subst pm; destruct Hie].
    destruct HR as (_ & parts & P & FV). rewrite (Parts_fun _ _ _ _ P Om) in FV. clear -FV Hi.
    induction FV as [|z' w' zs vs E F IH]; [destruct Hi|]. destruct Hi as [Ei|Hi]; [injection Ei as -> ->; auto|auto]. }
  destruct (addAll_true H hs Hsized n Hn L (combine (map nodeOf pz) proof) FL m2 T2) as (m3 & E3 & T3 & _).
  { apply Forall_forall. intros [x w] Hx.
    assert (G : forall a len, Range n a len -> nodeId a len = x -> NodeVal H L a len w).
    { clear -FP Hx. induction FP as [|x' w' zs vs E F IH]; [destruct Hx|].
      destruct Hx as [Ei|Hx]; [injection Ei as -> ->; auto|auto]. }
    apply In_combine_map in Hx as ([b l] & -> & Hi). cbn [fst snd].
    pose proof (in_combine_l _ _ _ _ Hi) as Hie. exists b, l. rewrite nodeOf_pair in *.
    destruct (F (b, l)) as [R _]; [rewrite !in_app_iff; tauto|]. auto. }
  rewrite E1. cbn [bind]. rewrite E2. cbn [bind]. rewrite E3. cbn [bind].
  destruct (addAll_cases hs n Hn (combine (map (mul64 2) entries) values) [] S0)
    as [(m1' & E1' & _ & S1 & _ & K1 & _)|(msg & E')]; [|rewrite E1 in E'; discriminate E'].
  rewrite E1 in E1'. injection E1' as <-.
  destruct (addAll_cases hs n Hn (combine (v_subtrees v) (v_values v)) m1 S1)
    as [(m2' & E2' & _ & S2 & _ & K2 & _)|(msg & E')]; [|rewrite E2 in E'; discriminate E'].
  rewrite E2 in E2'. injection E2' as <-.
  destruct (addAll_cases hs n Hn (combine (map nodeOf pz) proof) m2 S2)
    as [(m3' & E3' & _ & S3 & _ & K3 & _)|(msg & E')]; [|rewrite E3 in E'; discriminate E'].
  rewrite E3 in E3'. injection E3' as <-.
  set (Q := dedupSort (map fst m3)).
  pose proof (Forall2_len _ _ _ FP) as Ep. pose proof (Forall2_len _ _ _ FE) as Elen.
  assert (HQ1 : forall y, In y Q <-> In y (map nodeOf (map (fun i => (i, 1)) entries ++ pm ++ pz))).
  { intro y. unfold Q. rewrite dedupSort_In, <- has_In, K3, K2, K1.
    rewrite (combine_fst (map nodeOf pz)) by exact Ep.
    rewrite (combine_fst (v_subtrees v)) by (rewrite Em1, map_len; auto).
    rewrite (combine_fst (map (mul64 2) entries)) by (rewrite map_len; auto).
    rewrite !map_app, !in_app_iff, Em1, map_map.
    replace (map (fun x => nodeOf (x, 1)) entries) with (map (mul64 2) entries).
    - split; [intros [?|[?|[?|(w & E)]]]; auto; discriminate|tauto].
    - apply map_ext_in. intros i Hi. rewrite Forall_forall in He. rewrite nodeOf_pair.
      destruct (leaf_Range n i Hn (He i Hi)) as [_ ->]. apply (mul2_small n); auto. }
  destruct (HQ Q (dedupSort_sset _) HQ1) as [CQ VQ].
  assert (HK : forall y, In y Q -> has m3 y).
  { intros y Hy. unfold Q in Hy. rewrite dedupSort_In in Hy. now apply has_In. }
  assert (PQ : perfect n Q).
  { intros y Hy. apply HQ1 in Hy. apply in_map_iff in Hy as ([b l] & <- & Hz). exists b, l. rewrite nodeOf_pair.
    destruct (F (b, l)) as [R Hp]; [|auto]. rewrite !in_app_iff in *. tauto. }
  destruct (evaluate_true H hs Hsized Hhs n Hn L 0 n Q EL FL AV CQ 66%nat (root n) m3 (covers_root n Hn) (R_root n) (root_level_fuel n Hn) HK T3)
    as (m4 & E4 & X4 & T4 & _).
  destruct (evaluate_cases H hs Hhs n Hn 0 n Q CQ 66%nat (root n) m3 (covers_root n Hn) (root_level_fuel n Hn) HK S3)
    as [(m4' & E4' & _ & S4 & D4)|(msg & E4')]; [|rewrite E4 in E4'; discriminate E4'].
  rewrite E4 in E4'. injection E4' as <-. rewrite E4. cbn [bind].
  destruct (fullSubtrees_root n Hn) as (pn & En & Pn). rewrite En. cbn [bind].
  assert (Kn : forall y, In y (map nodeOf pn) -> has m4 y).
  { intros y Hy. apply in_map_iff in Hy as ([b l] & <- & Hz).
    pose proof (Parts_Range n 0 n pn Hn (R_root n) Pn) as FR. pose proof (Parts_pow2 _ _ _ Pn) as F2.
    rewrite Forall_forall in FR, F2.
    exact (Vis_has H n Hn m4 0 n Q D4 (R_root n) (nodeOf (b, l)) b l
             (Parts_Vis n Hn 0 n Q pn CQ (R_root n) PQ Pn _ Hz) eq_refl (FR _ Hz) (F2 _ Hz)). }
  destruct (mapM_nodeAt m4 (map nodeOf pn) Kn) as (fs & Ef & Ff). rewrite Ef. cbn [bind].
  rewrite EP. cbn [bind].
  assert (KP : forall y, In y (map nodeOf pP) -> has m4 y).
  { intros y Hy. apply in_map_iff in Hy as ([b l] & <- & Hz).
    destruct (F (b, l)) as [R Hp]; [rewrite !in_app_iff; tauto|].
    refine (Vis_has H n Hn m4 0 n Q D4 (R_root n) (nodeOf (b, l)) b l (VQ _ _) eq_refl R Hp). rewrite !in_app_iff. tauto. }
  destruct (mapM_nodeAt m4 (map nodeOf pP) KP) as (ad & Ea & Fa). rewrite Ea. cbn [bind].
  exists fs, ad. split; [auto|]. apply Forall2_map_l in Ff. apply Forall2_map_l in Fa. split.
  - apply (truthful_parts L m4 n n pn); auto; lia.
  - destruct nP as [k|]; cbn [optParts] in OP.
    + apply (truthful_parts L m4 n k pP); auto; lia.
    + subst pP. inversion Fa. auto.
Qed.
End Hash.
