(** From the server's output to the client's verdict. *)
From Coq Require Import Sorted Permutation.
From Verif Require Import Base BaseProofs LogMathSpec LogTreeModel LogTreeSpec LogChunkModel LogChunkProofs7 PrefixModel PrefixSpec PrefixHistProofs TransMathModel LaddersModel LaddersProofs
  CodecModel CodecSpec CodecProofs CodecProofs2 AlgModel AlgSpec AlgProofs AlgProofs4 HandleModel HandleSpec HandleProofs HandleProofs2.
Open Scope N_scope.

Lemma mapM_total {A B} (k : A -> res B) (h : A -> B) l : (forall x, In x l -> k x = Ok (h x)) -> mapM k l = Ok (map h l).
Proof.
  induction l as [|x l IH]; intros H; [reflexivity|]. cbn [mapM map]. rewrite (H x) by now left. cbn [bind].
  rewrite IH by (intros; apply H; now right). reflexivity.
Qed.

Lemma mapM_Forall2 {A B} (k : A -> res B) l l' : Forall2 (fun a b => k a = Ok b) l l' -> mapM k l = Ok l'.
Proof. induction 1 as [|a b l l' E F IH]; [reflexivity|]. cbn [mapM]. rewrite E. cbn [bind]. now rewrite IH. Qed.

Lemma Forall2_ex {A B} (P : A -> B -> Prop) l : (forall a, In a l -> exists b, P a b) -> exists l', Forall2 P l l'.
Proof.
  induction l as [|a l IH]; intros H; [now exists []|]. destruct (H a) as [b Hb]; [now left|].
  destruct IH as [l' F]; [intros; apply H; now right|]. exists (b :: l'). now constructor.
Qed.

Section End.
Variable f : bytes -> bytes.
Variable hs : N.
Variable W : world.
Hypothesis HF : faithful f hs W.
Hypothesis Hf : forall x, List.length (f x) = N.to_nat hs.
Hypothesis Hsmall : (N.to_nat hs <= 32)%nat.
Hypothesis Hpos : 0 < hs.

Local Notation L := (observed W).
Local Notation n := (lenN (w_entries W)).
Local Notation ts x := (le_ts (entryAt W x)).
Local Notation root x := (le_root (entryAt W x)).
Local Notation g x := (h_g (observed W) x).
Local Notation key := (w_key W).
Local Notation com := (w_com W).
Local Notation nhs := (N.to_nat hs).
Local Notation PH := (producedHandle hs (w_entriesDb W)).
Local Notation RH := (receivedHandle (full f) hs).

(** ** Retained entries *)

Local Notation trueEntries := (trueEntries W).

Definition stepsTs := fold_left (fun M (e : N * logEntry) => mput M (fst e) (ts (fst e))).
Definition stepsRoot := fold_left (fun R (e : N * logEntry) => mput R (fst e) (root (fst e))).

Lemma addRetained_true {S} ret sub (h : S) : trueEntries ret ->
  exists M R, addRetained (newDataProvider h) sub ret = Ok {| d_handle := h; d_subtrees := sub; d_retained := ret; d_ts := M; d_roots := R |} /\
    M = stepsTs ret [] /\ R = stepsRoot ret [].
Proof.
  intros [ND T]. unfold addRetained, newDataProvider. cbn [d_handle d_ts d_roots].
  assert (G : forall es M R, trueTs W M -> trueRoots W R -> NoDup (map fst es) -> (forall x e, In (x, e) es -> x < n /\ e = entryAt W x) ->
    (forall x e, In (x, e) es -> mget M x = None /\ mget R x = None) ->
    foldM (fun d e => let* ts := addTimestamp (d_ts d) (fst e) (le_ts (snd e)) in let* rs := addPrefixTree (d_roots d) (fst e) (le_root (snd e)) in Ok (withRoots (withTs d ts) rs)) es
      {| d_handle := h; d_subtrees := sub; d_retained := ret; d_ts := M; d_roots := R |} =
    Ok {| d_handle := h; d_subtrees := sub; d_retained := ret; d_ts := stepsTs es M; d_roots := stepsRoot es R |}).
  { induction es as [|[x e] es IH]; intros M R TM TR ND' T' Fr; [reflexivity|]. cbn [foldM d_ts d_roots fst snd].
    destruct (T' x e) as [Hx ->]; [now left|]. destruct (Fr x (entryAt W x)) as [F1 F2]; [now left|].
    rewrite (addTimestamp_true f hs W HF Hsmall Hpos M x TM Hx F1). cbn [bind]. rewrite (addRoot_true W R x TR). cbn [bind].
    unfold stepRoot, mhas. rewrite F2. cbn in ND'. inversion_clear ND' as [|? ? NI ND2].
    unfold withRoots, withTs. cbn [d_handle d_subtrees d_retained d_ts d_roots].
    rewrite IH; auto.
    - change (mput M x (ts x)) with (if false then M else mput M x (ts x)). 
      assert (E : (if false then M else mput M x (ts x)) = stepTs W M x) by (unfold stepTs, mhas; now rewrite F1). rewrite E. now apply step_trueTs.
    - assert (E : mput R x (root x) = stepRoot W R x) by (unfold stepRoot, mhas; now rewrite F2). rewrite E. now apply step_trueRoots.
    - intros y e' I. apply T'. now right.
    - intros y e' I. assert (y <> x) by (intros ->; apply NI; apply in_map_iff; now exists (x, e')).
      destruct (Fr y e') as [G1 G2]; [now right|]. rewrite !mget_mput. destruct (N.eqb_spec y x); [congruence|auto]. }
  do 2 eexists. split; [|split; reflexivity]. apply G; auto.
  - split; [constructor|discriminate].
  - intros ? ? [=].
Qed.

Lemma steps_inv ret : trueEntries ret ->
  trueTs W (stepsTs ret []) /\ trueRoots W (stepsRoot ret []) /\
  (forall x, In x (map fst ret) -> mget (stepsTs ret []) x = Some (ts x) /\ mget (stepsRoot ret []) x = Some (root x)).
Proof.
  intros [ND T].
  assert (G : forall es M R, trueTs W M -> trueRoots W R -> NoDup (map fst es) -> (forall x e, In (x, e) es -> x < n) -> (forall x, In x (map fst es) -> mget M x = None) ->
    trueTs W (stepsTs es M) /\ trueRoots W (stepsRoot es R) /\
    (forall x, In x (map fst es) \/ mget M x = Some (ts x) /\ mget R x = Some (root x) -> mget (stepsTs es M) x = Some (ts x) /\ mget (stepsRoot es R) x = Some (root x))).
  { induction es as [|[x e] es IH]; intros M R TM TR ND' T' Fr; cbn [stepsTs stepsRoot fold_left fst].
    - split; [exact TM|]. split; [exact TR|]. intros x [[]|K]. exact K.
    - assert (Hx : x < n) by (apply (T' x e); now left). cbn in ND'. inversion_clear ND' as [|? ? NI ND2].
      destruct (IH (mput M x (ts x)) (mput R x (root x))) as (A & B & C).
      + split; [cbn; constructor; [|apply TM]; apply nodup_mget; apply Fr; now left|].
        intros y t. rewrite mget_mput. destruct (N.eqb_spec y x) as [->|]; [intros [= <-]; auto|apply TM].
      + intros y t. rewrite mget_mput. destruct (N.eqb_spec y x) as [->|]; [intros [= <-]; auto|apply TR].
      + exact ND2.
      + intros; eapply T'; right; eauto.
      + intros y I. rewrite mget_mput. destruct (N.eqb_spec y x) as [->|]; [contradiction|]. apply Fr. now right.
      + split; [exact A|]. split; [exact B|]. intros y [[<-|I]|[K1 K2]]; apply C; auto.
        * cbn [fst]. right. rewrite !mget_mput, N.eqb_refl. auto.
        * right. rewrite !mget_mput. destruct (N.eqb_spec y x) as [->|]; auto. }
  destruct (G ret [] []) as (A & B & C).
  - split; [constructor|discriminate].
  - intros ? ? [=].
  - exact ND.
  - intros x e I. now apply T in I.
  - reflexivity.
  - split; [exact A|]. split; [exact B|]. intros x I. apply C. now left.
Qed.

(** ** The leaves inspected *)

Definition leavesOf (ret : list (N * logEntry)) (M : list (N * N)) : list N :=
  nsort (filter (fun x => negb (mhas ret x)) (map fst M)).
Definition emptyOf (ret : list (N * logEntry)) (M : list (N * N)) (R : list (N * bytes)) : list N :=
  filter (fun x => negb (mhas R x)) (leavesOf ret M).

Lemma leaves_in ret M x : In x (leavesOf ret M) <-> In x (map fst M) /\ mget ret x = None.
Proof.
  unfold leavesOf. rewrite nsort_in, filter_In. unfold mhas. destruct (mget ret x); cbn; intuition congruence.
Qed.

Lemma leaves_nodup ret M : NoDup (map fst M) -> NoDup (leavesOf ret M).
Proof.
  intros ND. unfold leavesOf. eapply Permutation_NoDup; [apply Permutation_sym, nsort_perm|]. now apply NoDup_filter.
Qed.

Lemma keys_mget {V} (M : list (N * V)) x : In x (map fst M) -> exists v, mget M x = Some v.
Proof. intros I. destruct (mget M x) eqn:E; [eauto|]. apply nodup_mget in E. contradiction. Qed.

Lemma fill_get xs : forall R, NoDup xs -> (forall x, In x xs -> mget R x = None) -> forall y,
  mget (fillRoots R xs (map (fun x => root x) xs)) y = if existsb (N.eqb y) xs then Some (root y) else mget R y.
Proof.
  induction xs as [|x xs IH]; intros R ND Fr y; [reflexivity|]. inversion_clear ND as [|? ? NI ND']. cbn [fillRoots map existsb].
  rewrite IH; auto.
  - rewrite mget_mput. destruct (N.eqb_spec y x) as [->|]; cbn [orb].
    + destruct (existsb _ xs); reflexivity.
    + reflexivity.
  - intros z I. rewrite mget_mput. destruct (N.eqb_spec z x) as [->|]; [contradiction|]. apply Fr. now right.
Qed.

Lemma fill_all ret M R : trueTs W M -> trueRoots W R -> forall x, In x (leavesOf ret M) ->
  mget (fillRoots R (emptyOf ret M R) (map (fun x => root x) (emptyOf ret M R))) x = Some (root x).
Proof.
  intros TM TR x I. rewrite fill_get.
  - destruct (existsb (N.eqb x) (emptyOf ret M R)) eqn:E; [reflexivity|].
    destruct (mget R x) eqn:E'; [now destruct (TR _ _ E') as [_ ->]|]. exfalso.
    assert (existsb (N.eqb x) (emptyOf ret M R) = true); [|congruence]. apply existsb_exists. exists x. split; [|apply N.eqb_refl].
    apply filter_In. split; auto. unfold mhas. now rewrite E'.
  - apply NoDup_filter, leaves_nodup, TM.
  - intros y Iy. apply filter_In in Iy. destruct Iy as [_ N]. unfold mhas in N. now destruct (mget R y).
Qed.

Lemma fill_grows ret M R : trueTs W M -> grows R (fillRoots R (emptyOf ret M R) (map (fun x => root x) (emptyOf ret M R))).
Proof.
  intros TM x r E. rewrite fill_get.
  - destruct (existsb (N.eqb x) (emptyOf ret M R)) eqn:B; [|exact E]. apply existsb_exists in B. destruct B as (y & I & Ey). apply N.eqb_eq in Ey. subst y.
    apply filter_In in I. unfold mhas in I. rewrite E in I. now destruct I.
  - apply NoDup_filter, leaves_nodup, TM.
  - intros y Iy. apply filter_In in Iy. destruct Iy as [_ N]. unfold mhas in N. now destruct (mget R y).
Qed.

Lemma P_leaves vm tr qts qps qr sub ret M R : trueTs W M -> trueRoots W R ->
  inspectedLeaves PH (mkP W vm tr qts qps qr sub ret M R) =
    (Ok (leavesOf ret M), mkP W vm tr qts qps (map (fun x => root x) (emptyOf ret M R)) sub ret M (fillRoots R (emptyOf ret M R) (map (fun x => root x) (emptyOf ret M R)))).
Proof.
  intros TM TR. unfold inspectedLeaves. cbn [mkP d_ts d_roots d_retained d_handle producedHandle hRoots]. fold (leavesOf ret M). fold (emptyOf ret M R).
  unfold qRoots. rewrite (mapM_total _ (fun x => root x)).
  - cbn [bind keepingQ]. rewrite map_length, Nat.eqb_refl. reflexivity.
  - intros x I. apply filter_In in I. destruct I as [I _]. apply leaves_in in I. destruct I as [I _]. apply keys_mget in I. destruct I as [t E]. apply TM in E.
    rewrite (getLogEntry_ok f hs W HF Hsmall Hpos x) by apply E. reflexivity.
Qed.

Lemma R_leaves vm tr T0 ps ri sub ret M R :
  inspectedLeaves RH (mkR vm tr T0 ps (map (fun x => root x) (emptyOf ret M R)) ri sub ret M R) =
    (Ok (leavesOf ret M), mkR vm tr T0 ps [] ri sub ret M (fillRoots R (emptyOf ret M R) (map (fun x => root x) (emptyOf ret M R)))).
Proof.
  unfold inspectedLeaves. cbn [mkR d_ts d_roots d_retained d_handle receivedHandle hRoots]. fold (leavesOf ret M). fold (emptyOf ret M R).
  unfold rRoots. cbn [r_roots]. rewrite map_length, Nat.eqb_refl. cbn [negb]. rewrite map_length, Nat.eqb_refl. reflexivity.
Qed.

(** ** The output of the server *)

(** The server has the VRF output of the version. *)
Definition hasKey (vm : verMap) (v : N) : Prop := exists c, mget vm v = Some (key v, c) /\ (c = None \/ c = Some (com v)).

Lemma note_ok vs : forall x vm, Forall (fun v => exists c, mget vm v = Some (key v, c) /\ (c = None \/ c = Some (com v))) vs ->
  exists vm', noteCommitments vm vs (map (fun v => if (Z.of_N v <=? g x)%Z then Some (com v) else None) vs) = Ok vm' /\
    (forall v, hasKey vm v -> hasKey vm' v) /\
    (forall v, In v vs -> (Z.of_N v <= g x)%Z -> mget vm' v = Some (key v, Some (com v))) /\
    (forall v, mget vm v = Some (key v, Some (com v)) -> mget vm' v = Some (key v, Some (com v))).
Proof.
  induction vs as [|v vs IH]; intros x vm F.
  - exists vm. cbn. repeat split; auto. intros ? [].
  - inversion_clear F as [|? ? (c & E & Hc) F']. cbn [map noteCommitments].
    destruct (Z.leb_spec (Z.of_N v) (g x)).
    + rewrite E. destruct Hc as [->| ->].
      * destruct (IH x (mput vm v (key v, Some (com v)))) as (vm' & E' & A & B & C).
        { eapply Forall_impl; [|exact F']. intros u (c' & E'' & K). rewrite mget_mput. destruct (N.eqb_spec u v) as [->|]; eauto. }
        exists vm'. split; [exact E'|]. split; [|split].
        -- intros u (c' & E'' & K). apply A. unfold hasKey. rewrite mget_mput. destruct (N.eqb_spec u v) as [->|]; eauto.
        -- intros u [<-|I] Hu; [|auto]. apply C. rewrite mget_mput, N.eqb_refl. reflexivity.
        -- intros u Eu. apply C. rewrite mget_mput. destruct (N.eqb_spec u v) as [->|]; [reflexivity|exact Eu].
      * rewrite bytes_eqb_refl. destruct (IH x vm F') as (vm' & E' & A & B & C). exists vm'. split; [exact E'|]. split; [exact A|]. split; [|exact C].
        intros u [<-|I] Hu; [|auto]. apply C. exact E.
    + destruct (IH x vm F') as (vm' & E' & A & B & C). exists vm'. split; [exact E'|]. split; [exact A|]. split; [|exact C].
      intros u [<-|I] Hu; [lia|auto].
Qed.

Lemma notes_ok qs : forall vm (ps : list pproof), Forall (fun q => Forall (hasKey vm) (snd q)) qs -> List.length ps = List.length qs ->
  exists vm', foldM (fun vm x => noteCommitments vm (snd (fst x)) (snd (snd x)))
      (combine qs (combine ps (map (fun q => map (fun v => if (Z.of_N v <=? g (fst q))%Z then Some (com v) else None) (snd q)) qs))) vm = Ok vm' /\
    (forall q v, In q qs -> In v (snd q) -> (Z.of_N v <= g (fst q))%Z -> mget vm' v = Some (key v, Some (com v))) /\
    (forall v, hasKey vm v -> hasKey vm' v) /\
    (forall v, mget vm v = Some (key v, Some (com v)) -> mget vm' v = Some (key v, Some (com v))).
Proof.
  induction qs as [|q qs IH]; intros vm [|p ps] F Len; try discriminate Len.
  - exists vm. cbn. repeat split; auto. intros ? ? [].
  - inversion_clear F as [|? ? Fq F']. cbn [combine map foldM fst snd].
    destruct (note_ok (snd q) (fst q) vm Fq) as (vm1 & E1 & A1 & B1 & C1). rewrite E1. cbn [bind].
    destruct (IH vm1 ps) as (vm' & E & B & K & C).
    + eapply Forall_impl; [|exact F']. intros q' G. eapply Forall_impl; [|exact G]. exact A1.
    + now injection Len.
    + exists vm'. split; [exact E|]. split; [|split; [auto|auto]]. intros q' v [<-|I] Iv Hv; [|eauto]. apply C, B1; auto.
Qed.

Lemma combine_fst_snd {A B} (l : list (A * B)) : combine (map fst l) (map snd l) = l.
Proof. induction l as [|[a b] l IH]; cbn; [reflexivity|now rewrite IH]. Qed.

Lemma output_ok vm tr qts qps qr leaves nP m incl : Forall (okQuery W) qps -> Forall (fun q => Forall (hasKey vm) (snd q)) qps ->
  getBatch (full f) hs (w_logDb W) leaves n nP m = Ok incl ->
  exists ps vm', Forall2 (proves f hs W) qps ps /\
    qOutput (full f) hs (w_logDb W) (w_prefixDb W)
      {| q_index := w_index W; q_versions := vm; q_tracker := tr; q_ts := qts; q_proofs := qps; q_roots := qr |} leaves n nP m =
      Ok ({| cp_ts := qts; cp_proofs := ps; cp_roots := qr; cp_incl := incl |},
          {| q_index := w_index W; q_versions := vm'; q_tracker := tr; q_ts := qts; q_proofs := qps; q_roots := qr |}) /\
    (forall q v, In q qps -> In v (snd q) -> (Z.of_N v <= g (fst q))%Z -> mget vm' v = Some (key v, Some (com v))) /\
    (forall v, hasKey vm v -> hasKey vm' v).
Proof.
  intros FQ FK EG. unfold qOutput. cbn [q_proofs q_versions q_index q_tracker q_ts q_roots].
  rewrite (mapM_total _ (fun q => (add64 (fst q) 1, map key (snd q)))).
  2:{ intros [x vs] I. rewrite Forall_forall in FK. specialize (FK _ I). cbn [snd] in FK. rewrite (mapM_total _ key).
      - reflexivity.
      - intros v Iv. rewrite Forall_forall in FK. destruct (FK v Iv) as (c & E & _). rewrite E. reflexivity. }
  cbn [bind].
  destruct (Forall2_ex (fun q r => search (full f) nhs (w_prefixDb W) (add64 (fst q) 1) (map key (snd q)) = Ok r /\
     snd r = map (fun v => if (Z.of_N v <=? g (fst q))%Z then Some (com v) else None) (snd q) /\ proves f hs W q (fst r)) qps) as (rs & F2).
  { intros q I. rewrite Forall_forall in FQ. destruct (proves_search f hs W HF Hf Hsmall Hpos q (FQ q I)) as (p & E & Pr). eexists. split; [exact E|]. split; [reflexivity|exact Pr]. }
  rewrite (mapM_Forall2 _ _ rs).
  2:{ clear -F2. induction F2 as [|q r qs rs (E & _) F IH]; cbn [map]; constructor; auto. }
  cbn [bind].
  assert (Ers : rs = combine (map fst rs) (map (fun q => map (fun v => if (Z.of_N v <=? g (fst q))%Z then Some (com v) else None) (snd q)) qps)).
  { clear -F2. induction F2 as [|q [p c] qs rs (_ & E & _) F IH]; cbn [map combine fst snd] in *; [reflexivity|]. rewrite <- IH. now rewrite E. }
  destruct (notes_ok qps vm (map fst rs) FK) as (vm' & E & B & K & _).
  { rewrite map_length. clear -F2. induction F2; cbn; auto. }
  rewrite <- Ers in E. rewrite E. cbn [bind]. rewrite EG. cbn [bind].
  exists (map fst rs), vm'. split; [|split; [reflexivity|split; [exact B|exact K]]].
  clear -F2. induction F2 as [|q r qs rs (_ & _ & Pr) F IH]; cbn [map]; constructor; auto.
Qed.

Lemma addVersions_ok vs : forall q, NoDup vs -> (forall v, In v vs -> mget (q_versions q) v = None) ->
  exists vm, foldM (fun q v => qAddVersion hs q v (key v)) vs q =
    Ok {| q_index := q_index q; q_versions := vm; q_tracker := q_tracker q; q_ts := q_ts q; q_proofs := q_proofs q; q_roots := q_roots q |} /\
    (forall v, In v vs -> mget vm v = Some (key v, None)) /\ (forall v, ~ In v vs -> mget vm v = mget (q_versions q) v).
Proof.
  assert (HK : forall v, lenN (key v) = hs).
  { intro v. destruct HF as (_ & _ & _ & _ & _ & _ & _ & K & _). destruct (K v) as [K1 _]. unfold lenN. lia. }
  induction vs as [|v vs IH]; intros q ND Fr.
  - exists (q_versions q). cbn. split; [now destruct q|]. split; [intros ? []|auto].
  - inversion_clear ND as [|? ? NI ND']. cbn [foldM]. unfold qAddVersion at 1, addVersion. rewrite HK, N.eqb_refl. cbn [negb].
    unfold mhas. rewrite (Fr v) by now left. cbn [bind].
    match goal with |- context [foldM _ vs ?x] => set (q1 := x) end.
    destruct (IH q1 ND') as (vm & E & A & B).
    + intros u I. cbn [q1 q_versions]. rewrite mget_mput. destruct (N.eqb_spec u v) as [->|]; [contradiction|]. apply Fr. now right.
    + exists vm. split; [exact E|]. split.
      * intros u [<-|I]; auto. rewrite B by auto. cbn [q1 q_versions]. rewrite mget_mput, N.eqb_refl. reflexivity.
      * intros u NIu. rewrite B by (intro; apply NIu; now right). cbn [q1 q_versions]. rewrite mget_mput. destruct (N.eqb_spec u v) as [->|]; [|reflexivity].
        exfalso. apply NIu. now left.
Qed.

(** ** The whole exchange *)

Lemma exchange {A} (p : prog A) a s' evs ret m nP front :
  run (honest L) p 0 = (a, s', evs) -> smooth L tracker0 evs -> trueEntries ret ->
  frontier n = Ok front -> (forall x, In x front -> In x (map fst ret) \/ exists e, In e evs /\ touches x e) ->
  convincing f hs W p a ret m nP.
Proof.
  intros ER Sm TE EF HC leaves r FL HM Hm OP. cbn zeta.
  destruct (steps_inv ret TE) as (TM0 & TR0 & Kn).
  destruct (simulate f hs W HF Hsmall Hpos p 0 tracker0 a s' evs (stepsTs ret []) (stepsRoot ret []) ER Sm TM0 TR0)
    as (M & R & dts & dps & tr' & TM & TR & GM & GR & HE & _ & FQ & SP & SR).
  set (lv := leavesOf ret M). set (em := map (fun x => root x) (emptyOf ret M R)). set (R' := fillRoots R (emptyOf ret M R) em).
  set (old := match m with Some (_, old) => old | None => [] end).
  (* known positions *)
  assert (Hlv : forall x, In x lv -> x < n /\ mget M x = Some (ts x) /\ mget R' x = Some (root x)).
  { intros x I. assert (I' := I). apply leaves_in in I'. destruct I' as [I' _]. apply keys_mget in I'. destruct I' as [t E]. destruct TM as [ND TM].
    destruct (TM _ _ E) as [Hx ->]. split; [exact Hx|]. split; [exact E|]. apply fill_all; auto. now split. }
  assert (Hfr : forall x, In x front -> mget M x = Some (ts x) /\ mget R' x = Some (root x)).
  { intros x I. assert (EM : mget M x = Some (ts x)).
    { destruct (HC x I) as [I'|(e & It & Te)]; [apply GM; now apply Kn|eapply HE; eauto]. }
    split; [exact EM|]. destruct (mget ret x) eqn:Er.
    - apply (fill_grows ret M R TM). apply GR. apply Kn. apply mget_In in Er. apply in_map_iff. exists (x, l). auto.
    - apply Hlv. apply leaves_in. split; [|exact Er]. apply mget_In in EM. apply in_map_iff. exists (x, ts x). auto. }
  (* leaf hashes *)
  assert (Len : lenN leaves = n) by (unfold lenN; f_equal; clear -FL; induction FL; cbn; auto).
  assert (Hh : forall x, x < n -> exists h, logEntryHash (full f) (entryAt W x) = Ok h /\ nth_error leaves (N.to_nat x) = Some h).
  { intros x Hx. pose proof (entry_nth hs W Hsmall Hpos x Hx) as En. clear -FL En. revert En. generalize (entryAt W x). generalize (N.to_nat x).
    induction FL as [|e h es hs' E F IH]; intros [|k] e0; cbn [nth_error]; try discriminate; [intros [= ->]; eauto|apply IH]. }
  destruct (Forall2_ex (fun x h => logEntryHash (full f) (entryAt W x) = Ok h /\ nth_error leaves (N.to_nat x) = Some h) lv) as (values & FV).
  { intros x I. apply Hh. now apply Hlv. }
  (* the log *)
  assert (HW := HF). destruct HW as (HO & H63 & _ & _ & _ & (leaves' & fsl & FL' & EA) & _).
  assert (leaves' = leaves).
  { clear -FL FL'. revert leaves' FL'. induction FL as [|e h es hs' E F IH]; intros ? FL'; inversion FL'; subst; auto. f_equal; [congruence|auto]. }
  subst leaves'. rewrite Len in EA.
  assert (HS : Forall (fun e : bytes => lenN e = hs) leaves).
  { clear -FL Hf. induction FL as [|e h es hs' E F IH]; constructor; auto. unfold logEntryHash in E. destruct (logEntryMarshal e); try discriminate. cbn in E.
    injection E as <-. unfold lenN. rewrite Hf. lia. }
  destruct HO as (Hn & _). cbn [observed h_n] in Hn.
  destruct (c08_verified f hs ltac:(intro x; unfold lenN; rewrite Hf; lia) Hpos leaves lv values n nP m r)
    as (fs1 & st1 & incl & fs' & ad & E1 & E2 & E3 & E4 & E5 & E6).
  - lia.
  - exact HS.
  - lia.
  - apply leaves_nodup. apply TM.
  - clear -FV Hlv. assert (G : forall x, In x lv -> x < n) by (intros; now apply Hlv). clear Hlv. induction FV as [|x h xs vs [_ A] F IH]; constructor.
    + split; [apply G; now left|exact A].
    + apply IH. intros; apply G; now right.
  - exact OP.
  - exact Hm.
  - rewrite firstn_all2; [exact HM|]. unfold lenN in *. lia.
  - rewrite Len in E1. rewrite EA in E1. injection E1 as <- <-.
    (* the server *)
    destruct (addRetained_true ret [] (newProduced (w_index W)) TE) as (M0 & R0 & ED & -> & ->).
    pose proof (SP [] [] [] [] [] ret eq_refl) as SP'. cbn [app] in SP'.
    set (dP := mkP W [] tr' dts dps [] [] ret M R) in *.
    assert (NDr : NoDup (requiredVersions (d_handle dP))) by (unfold requiredVersions; apply NoDup_nodup).
    destruct (addVersions_ok (requiredVersions (d_handle dP)) (d_handle dP) NDr) as (vm1 & EV & A1 & _); [reflexivity|].
    assert (In1 : forall q v, In q dps -> In v (snd q) -> In v (requiredVersions (d_handle dP))).
    { intros q v I Iv. unfold requiredVersions. apply nodup_In. apply in_flat_map. exists q. auto. }
    destruct (output_ok vm1 tr' dts dps em lv nP (option_map fst m) incl FQ) as (ps & vm2 & FP & EO & NC & NK).
    { apply Forall_forall. intros q I. apply Forall_forall. intros v Iv. exists None. split; [|now left]. apply A1. eapply In1; eauto. }
    { exact E2. }
    eexists {| cp_ts := dts; cp_proofs := ps; cp_roots := em; cp_incl := incl |}, _.
    split.
    + unfold serverSide. rewrite ED. cbn [bind].
      match type of SP' with ?l = _ => match goal with |- context[run ?a1 ?a2 ?a3] => change (run a1 a2 a3) with l end end. rewrite SP'. rewrite EV. cbn [bind].
      unfold dpOutput. change (withHandle dP _) with (mkP W vm1 tr' dts dps [] [] ret M R). rewrite P_leaves by auto. cbn [mkP d_handle].
      match type of EO with ?l = _ => match goal with |- context[qOutput ?a1 ?a2 ?a3 ?a4 ?a5 ?a6 ?a7 ?a8 ?a9] => change (qOutput a1 a2 a3 a4 a5 a6 a7 a8 a9) with l end end.
      rewrite EO. cbn [bind]. reflexivity.
    + intros vm KV.
      destruct (addRetained_true ret old {| r_ts := dts; r_proofs := ps; r_roots := em; r_incl := incl; r_versions := vm; r_tracker := tracker0 |} TE) as (M0 & R0 & EC & -> & ->).
      pose proof (SR vm [] ps em incl old ret FP) as SR'. rewrite app_nil_r in SR'.
      assert (KD : Forall (fun q => Forall (knows hs W vm (fst q)) (snd q)) dps).
      { apply Forall_forall. intros q I. apply Forall_forall. intros v Iv. destruct (KV v (key v) (match mget vm2 v with Some (_, c) => c | None => None end)) as (c' & Ec & Hc).
        { apply in_map_iff. exists v. split; [reflexivity|]. eapply In1; eauto. }
        exists c'. split; [exact Ec|]. assert (Lc : List.length (com v) = nhs) by (destruct HF as (_ & _ & _ & _ & _ & _ & _ & K & _); apply K).
        destruct (NK v) as (c2 & E2' & Hc2); [exists None; split; [apply A1; eapply In1; eauto|now left]|]. rewrite E2' in Hc. destruct (Z.leb_spec (Z.of_N v) (g (fst q))) as [Hv|Hv].
        - rewrite (NC q v I Iv Hv) in E2'. injection E2' as <-. destruct Hc as [->| ->]; reflexivity.
        - destruct Hc as [->| ->]; [destruct Hc2 as [->| ->]|]; auto. }
      specialize (SR' KD).
      exists {| pr_subtrees := fs'; pr_additional := ad; pr_entries := map (fun x => (x, entryAt W x)) front |}, front.
      split; [|split; [exact E4|split; [exact E5|split; [exact E6|split; [exact EF|reflexivity]]]]].
      unfold clientSide. cbn [cp_ts cp_proofs cp_roots cp_incl]. fold old. rewrite EC. cbn [bind].
      match type of SR' with ?l = _ => match goal with |- context[run ?a1 ?a2 ?a3] => change (run a1 a2 a3) with l end end. rewrite SR'.
      match goal with |- (let* pr := ?X in _) = _ => assert (EX : X = Ok {| pr_subtrees := fs'; pr_additional := ad; pr_entries := map (fun x => (x, entryAt W x)) front |}); [|rewrite EX; reflexivity] end.
      unfold dpFinish. unfold em at 1. rewrite R_leaves. fold em. fold R'. fold lv.
        assert (EM2 : mapM (fun x => let* t := getOr "unreachable" (mget M x) in let* rt := getOr "unreachable" (mget R' x) in logEntryHash (full f) {| le_ts := t; le_root := rt |}) lv = Ok values).
        { apply mapM_Forall2. clear -FV Hlv. assert (G : forall x, In x lv -> mget M x = Some (ts x) /\ mget R' x = Some (root x)) by (intros x I; apply Hlv in I; tauto). clear Hlv.
          induction FV as [|x h xs vs [A _] F IH]; constructor; [|apply IH; intros; apply G; now right].
          destruct (G x) as [-> ->]; [now left|]. cbn [getOr bind]. rewrite <- A. now destruct (entryAt W x). }
        cbn [mkR d_ts d_roots d_handle d_subtrees]. rewrite EM2. cbn [bind rFinish r_ts r_proofs r_roots r_incl].
        replace (option_map (fun k => (k, old)) (option_map fst m)) with m by (subst old; destruct m as [[? ?]|]; reflexivity).
        rewrite E3. cbn [bind]. rewrite EF. cbn [bind].
        rewrite (mapM_total _ (fun x => (x, entryAt W x))); [reflexivity|].
        intros x I. destruct (Hfr x I) as [-> ->]. cbn [getOr bind]. now destruct (entryAt W x).
Qed.
End End.
