(** Final lemmas for C04-C07. *)
From Verif Require Import Base BaseProofs LogMathModel LogMathSpec NodeMathProofs LogMathProofs LogMathProofs2 LogTreeModel LogTreeSpec LogTreeProofs LogAppendProofs LogVerifyProofs LogVerifyProofs2.

Section Hash.
Variable H : bytes -> option bytes.
Variable hs : N.

Lemma Mth_total : total H -> forall L, L <> [] -> exists v, Mth H L v.
Proof.
  intro HT. assert (G : forall k L, (List.length L <= k)%nat -> L <> [] -> exists v, Mth H L v).
  { induction k as [|k IH]; intros L Hk HL; [destruct L; [congruence|cbn in Hk; lia]|].
    destruct L as [|x [|y L]]; [congruence|exists x; constructor|].
    set (M := x :: y :: L) in *. assert (HM : 1 < lenN M) by (unfold M, lenN; cbn [List.length]; lia). clearbody M.
    pose proof (split_spec _ HM) as Sp.
    assert (Ef : List.length (firstn (N.to_nat (split (lenN M))) M) = N.to_nat (split (lenN M))).
    { rewrite firstn_length. unfold lenN in *. lia. }
    assert (Es : (List.length (skipn (N.to_nat (split (lenN M))) M) + N.to_nat (split (lenN M)) = List.length M)%nat).
    { rewrite skipn_length. unfold lenN in *. lia. }
    destruct (IH (firstn (N.to_nat (split (lenN M))) M)) as (vl & Vl).
    { unfold lenN in *. lia. } { intro E. rewrite E in Ef. cbn in Ef. lia. }
    destruct (IH (skipn (N.to_nat (split (lenN M))) M)) as (vr & Vr).
    { unfold lenN in *. lia. } { intro E. rewrite E in Es. cbn in Es. unfold lenN in *. lia. }
    destruct (HT (tagged (lenN (firstn (N.to_nat (split (lenN M))) M)) vl ++ tagged (lenN (skipn (N.to_nat (split (lenN M))) M)) vr)) as (h & Eh).
    exists h. rewrite <- (firstn_skipn (N.to_nat (split (lenN M))) M). apply Mth_node with vl vr; auto.
    - now rewrite firstn_skipn.
    - rewrite firstn_skipn. unfold lenN at 1. rewrite Ef. lia. }
  intros L HL. eapply G; eauto.
Qed.

Lemma foldM_app {A B} (f : B -> A -> res B) l1 l2 b : foldM f (l1 ++ l2) b = bind (foldM f l1 b) (foldM f l2).
Proof.
  revert b. induction l1 as [|a l1 IH]; intro b; cbn [foldM app bind]; auto. destruct (f b a); cbn [bind]; auto.
Qed.

(** Appending entries one at a time. *)
Lemma c04_append L : sized H hs -> 0 < hs -> total H -> 1 <= lenN L <= 2 ^ 63 -> Forall (fun e : bytes => lenN e = hs) L ->
  exists fs r,
    foldM (fun st e => let* fs' := logAppend H (fst st) (snd st) e in Ok (fst st + 1, fs')) L (0, []) = Ok (lenN L, fs) /\
    FullValues H L (lenN L) fs /\ logRoot H hs (lenN L) fs = Ok r /\ Mth H L r.
Proof.
  intros Hs Hh HT Hn FL. change (2 ^ 63) with two63 in Hn.
  assert (G : exists fs, foldM (fun st e => let* fs' := logAppend H (fst st) (snd st) e in Ok (fst st + 1, fs')) L (0, []) = Ok (lenN L, fs) /\
    (lenN L = 0 \/ FullValues H L (lenN L) fs)).
  { destruct Hn as [_ Hn]. revert Hn FL. induction L as [|e L IH] using rev_ind; intros Hn FL.
    - exists []. split; [reflexivity|]. left. reflexivity.
    - apply Forall_app in FL as FL'. destruct FL' as [FL1 _]. rewrite lenN_app in Hn. change (lenN [e]) with 1 in Hn.
      destruct IH as (fs & E & FV); [lia|auto|].
      destruct (logAppend_spec H hs Hs Hh L fs e HT) as (fs' & E' & FV'); auto; [lia|].
      exists fs'. rewrite foldM_app, E. cbn [bind foldM fst snd]. rewrite E'. cbn [bind].
      replace (lenN L + 1) with (lenN (L ++ [e])) by (rewrite lenN_app; reflexivity). auto. }
  destruct G as (fs & E & [E0|FV]); [lia|]. 
  destruct (Mth_total HT L) as (r & M). { intros ->. cbn in Hn. lia. }
  exists fs, r. split; [auto|]. split; [auto|]. split; [|auto].
  apply (logRoot_spec H hs); auto.
Qed.


Definition prevOf (retained : option (N * list bytes)) : option N := option_map fst retained.

Lemma start_wf retained v : match retained with None => Ok newVerifier | Some (m, fs) => retain hs m fs end = Ok v ->
  wfv v /\ v_prev v = prevOf retained /\ v_values v = match retained with Some (_, fs) => fs | None => [] end.
Proof.
  destruct retained as [[m fs]|].
  - intro E. apply wfv_retain in E as (W & E1 & E2 & _). auto.
  - intros [= <-]. split; [apply wfv_new|]. auto.
Qed.

Lemma retain_cases m fs : (exists v, retain hs m fs = Ok v) \/ (exists msg, retain hs m fs = Fail msg).
Proof.
  unfold retain. rewrite maxTreeSize_two63. destruct (N.eqb_spec m 0); [right; eexists; reflexivity|].
  destruct (N.ltb_spec two63 m); [right; eexists; reflexivity|]. cbn [orb].
  destruct (fullSubtrees_root m) as (pm & E & P); [lia|]. rewrite E. cbn [bind].
  destruct (negb _); [right; eexists; reflexivity|]. destruct (existsb _ _); [right|left]; eexists; reflexivity.
Qed.

Lemma verifyBatch_total retained entries n nP values proof :
  sized H hs -> 0 < hs -> match retained with Some (m, _) => m <= n | None => True end ->
  (exists fs ad, verifyBatch H hs retained entries n nP values proof = Ok (fs, ad)) \/
  (exists msg, verifyBatch H hs retained entries n nP values proof = Fail msg).
Proof.
  intros Hs Hh Hm. unfold verifyBatch.
  destruct (match retained with None => Ok newVerifier | Some (m, fs) => retain hs m fs end) as [v|msg| |] eqn:E; cbn [bind].
  - apply start_wf in E as (W & E1 & E2).
    destruct (evaluateProof_cases H hs Hh v entries n nP values proof W) as [(msg & E)|(fs & ad & m4 & Q & pn & pP & pm & E & _)]; eauto.
    rewrite E1. destruct retained as [[m fs]|]; cbn; auto.
  - eauto.
  - destruct retained as [[m fs]|]; [|discriminate]. destruct (retain_cases m fs) as [(v & E')|(msg' & E')]; rewrite E' in E; discriminate.
  - destruct retained as [[m fs]|]; [|discriminate]. destruct (retain_cases m fs) as [(v & E')|(msg' & E')]; rewrite E' in E; discriminate.
Qed.

Lemma verifyBatch_sound retained entries n nP values proof fs ad L r :
  sized H hs -> 0 < hs -> collisionFree H ->
  match retained with Some (m, _) => m <= n | None => True end ->
  lenN L = n -> Forall (fun e : bytes => lenN e = hs) L ->
  verifyBatch H hs retained entries n nP values proof = Ok (fs, ad) ->
  logRoot H hs n fs = Ok r -> Mth H L r ->
  Forall2 (fun i w => nth_error L (N.to_nat i) = Some w) entries values /\
  FullValues H L n fs /\
  match nP with Some k => FullValues H L k ad | None => ad = [] end /\
  match retained with Some (m, old) => FullValues H L m old | None => True end.
Proof.
  intros Hs Hh CF Hm EL FL E ER M. unfold verifyBatch in E.
  destruct (match retained with None => Ok newVerifier | Some (m, fs) => retain hs m fs end) as [v|msg| |] eqn:E0; try discriminate.
  cbn [bind] in E. apply start_wf in E0 as (W & E1 & E2).
  destruct (evaluateProof_sound H hs Hs Hh v entries n nP values proof fs ad L r) as (A & B & C & D); auto.
  - rewrite E1. destruct retained as [[m f]|]; cbn; auto.
  - split; [auto|]. split; [auto|]. split; [auto|]. rewrite E1, E2 in D. destruct retained as [[m f]|]; cbn in D; auto.
Qed.

Lemma retain_true L k fs : sized H hs -> Forall (fun e : bytes => lenN e = hs) L -> 1 <= k <= two63 ->
  FullValues H L k fs -> exists v, retain hs k fs = Ok v.
Proof.
  intros Hs FL Hk FV. unfold retain. rewrite maxTreeSize_two63.
  destruct (N.eqb_spec k 0); [lia|]. destruct (N.ltb_spec two63 k); [lia|]. cbn [orb].
  destruct (fullSubtrees_root k) as (pm & E & P); [lia|]. rewrite E. cbn [bind].
  pose proof (FullValues_sized H hs Hs L k fs FL FV) as SZ. destruct FV as (pm' & P' & F).
  rewrite (Parts_fun _ _ _ _ P' P) in F.
  rewrite map_len, (Forall2_len _ _ _ F), N.eqb_refl. cbn [negb]. rewrite sizes_ok by auto. eauto.
Qed.

Lemma verifyBatch_complete retained entries nP values proof L r cp :
  sized H hs -> 0 < hs ->
  1 <= lenN L <= 2 ^ 63 -> Forall (fun e : bytes => lenN e = hs) L -> Mth H L r ->
  match retained with Some (m, old) => 1 <= m <= lenN L /\ FullValues H L m old | None => True end ->
  Forall2 (fun i w => nth_error L (N.to_nat i) = Some w) entries values ->
  match nP with Some k => 1 <= k <= lenN L | None => True end ->
  batchCopath entries (lenN L) nP (option_map fst retained) = Ok cp ->
  Forall2 (fun x w => forall a len, Range (lenN L) a len -> nodeId a len = x -> NodeVal H L a len w) cp proof ->
  exists fs ad, verifyBatch H hs retained entries (lenN L) nP values proof = Ok (fs, ad) /\
    FullValues H L (lenN L) fs /\ logRoot H hs (lenN L) fs = Ok r /\
    match nP with Some k => FullValues H L k ad | None => ad = [] end.
Proof.
  intros Hs Hh Hn FL M HR FE HnP EC FP. change (2 ^ 63) with two63 in Hn. unfold verifyBatch.
  assert (exists v, match retained with None => Ok newVerifier | Some (m, fs) => retain hs m fs end = Ok v) as (v & E0).
  { destruct retained as [[m old]|]; [|eauto]. destruct HR as [Hm FV]. eapply retain_true; eauto. lia. }
  rewrite E0. cbn [bind]. apply start_wf in E0 as (W & E1 & E2).
  destruct (evaluateProof_complete H hs Hs Hh v entries nP values proof L r cp) as (fs & ad & E & FV & A); auto.
  - rewrite E1, E2. destruct retained as [[m old]|]; cbn; auto. split; [lia|tauto].
  - now rewrite E1.
  - exists fs, ad. split; [auto|]. split; [auto|]. split; [|auto]. apply (logRoot_spec H hs); auto.
Qed.
End Hash.

(** The Merkle hash determines the list. *)
Lemma Mth_inj H hs L L' v : sized H hs -> 0 < hs -> collisionFree H ->
  Forall (fun e : bytes => lenN e = hs) L -> Forall (fun e : bytes => lenN e = hs) L' ->
  lenN L = lenN L' -> Mth H L v -> Mth H L' v -> L = L'.
Proof.
  intros Hs Hh CF FL FL' El M. revert L' FL' El.
  induction M as [v|l r vl vr h Hl Hsp Ml IHl Mr IHr E]; intros L' FL' El M'.
  - apply Mth_inv in M' as [E|(Hl & _)]; auto. rewrite <- El in Hl. cbn in Hl. lia.
  - apply Mth_inv in M' as [E2|(_ & l2 & r2 & vl2 & vr2 & E2 & Hsp2 & Ml2 & Mr2 & EH)].
    + rewrite E2 in El. change (lenN [h]) with 1 in El. lia.
    + assert (Ell : lenN l = lenN l2) by congruence. subst L'.
      assert (Elr : lenN r = lenN r2) by (rewrite !lenN_app in El; lia).
      apply Forall_app in FL as [Fl Fr]. apply Forall_app in FL' as [Fl2 Fr2].
      pose proof (CF _ _ _ E EH) as EQ. rewrite <- Ell, <- Elr in EQ.
      apply tagged_inj in EQ as [-> ->].
      * rewrite (IHl Fl l2), (IHr Fr r2); auto.
      * rewrite (Mth_sized H hs Hs l vl Fl Ml), (Mth_sized H hs Hs l2 vl2 Fl2 Ml2). auto.
Qed.

Lemma slice_firstn L a len m : a + len <= m -> slice (firstn (N.to_nat m) L) a len = slice L a len.
Proof.
  intro Hm. unfold slice. rewrite skipn_firstn_comm, firstn_firstn. f_equal. lia.
Qed.

Lemma FullValues_firstn H L m fs : 1 <= m -> FullValues H L m fs -> FullValues H (firstn (N.to_nat m) L) m fs.
Proof.
  intros Hm (parts & P & F). exists parts. split; auto. pose proof (Parts_tiles _ _ _ Hm P) as T.
  eapply Forall2_impl_In; [|exact F]. intros [b l] v Hz NV. cbn [fst snd] in *. unfold NodeVal in *.
  destruct (tiles_in _ _ _ _ _ T Hz) as (T1 & T2 & T3). rewrite slice_firstn; auto.
Qed.

(** Tables *)
Lemma restrict_sized f hs T : (forall x, lenN (f x) = hs) -> sized (restrict f T) hs.
Proof. intros A x h. unfold restrict. destruct (existsb _ _); [|discriminate]. intros [= <-]. auto. Qed.

Lemma full_sized f hs : (forall x, lenN (f x) = hs) -> sized (full f) hs.
Proof. intros A x h [= <-]. auto. Qed.

Lemma restrict_collision f T : collisionFree (restrict f T) \/ collisionIn f T.
Proof.
  assert (D : forall U, (forall x y, In x U -> In y T -> f x = f y -> x = y) \/ exists x y, In x U /\ In y T /\ x <> y /\ f x = f y).
  { induction U as [|u U IH]; [left; intros x y []|].
    assert (D1 : forall V, (forall y, In y V -> f u = f y -> u = y) \/ exists y, In y V /\ u <> y /\ f u = f y).
    { induction V as [|w V IHV]; [left; intros y []|]. destruct IHV as [A|(y & A & B)]; [|right; exists y; cbn; auto].
      destruct (bytes_eq_dec u w) as [->|Hne].
      - left. intros y [<-|Hy]; auto.
      - destruct (bytes_eq_dec (f u) (f w)) as [E|E].
        + right. exists w. cbn. auto.
        + left. intros y [<-|Hy]; [congruence|auto]. }
    destruct (D1 T) as [A|(y & A & B & C)]; [|right; exists u, y; cbn; auto].
    destruct IH as [B|(x & y & X1 & X2 & X3)]; [|right; exists x, y; cbn; auto].
    left. intros x y [<-|Hx] Hy E; auto. }
  destruct (D T) as [A|(x & y & A)]; [left|right; exists x, y; tauto].
  intros x y h. unfold restrict. destruct (existsb (bytes_eqb x) T) eqn:Ex; [|discriminate].
  destruct (existsb (bytes_eqb y) T) eqn:Ey; [|discriminate].
  apply existsb_exists in Ex as (x' & Hx & Ex). apply existsb_exists in Ey as (y' & Hy & Ey).
  apply bytes_eqb_eq in Ex, Ey. subst. intros E1 E2. apply A; congruence.
Qed.

Lemma c06_sound f T hs retained entries n nP values proof fs ad L r :
  (forall x, lenN (f x) = hs) -> 0 < hs ->
  match retained with Some (m, _) => m <= n | None => True end ->
  lenN L = n -> Forall (fun e : bytes => lenN e = hs) L ->
  verifyBatch (restrict f T) hs retained entries n nP values proof = Ok (fs, ad) ->
  logRoot (restrict f T) hs n fs = Ok r -> Mth (restrict f T) L r ->
  (Forall2 (fun i w => nth_error L (N.to_nat i) = Some w) entries values /\
   FullValues (restrict f T) L n fs /\
   match nP with Some k => FullValues (restrict f T) L k ad | None => ad = [] end)
  \/ collisionIn f T.
Proof.
  intros Hs Hh Hm EL FL E ER M. destruct (restrict_collision f T) as [CF|]; auto. left.
  destruct (verifyBatch_sound (restrict f T) hs retained entries n nP values proof fs ad L r) as (A & B & C & _); auto.
  now apply restrict_sized.
Qed.

Lemma c07_consistent f T hs m old entries n nP values proof fs ad L r :
  (forall x, lenN (f x) = hs) -> 0 < hs -> m <= n ->
  lenN L = n -> Forall (fun e : bytes => lenN e = hs) L ->
  verifyBatch (restrict f T) hs (Some (m, old)) entries n nP values proof = Ok (fs, ad) ->
  logRoot (restrict f T) hs n fs = Ok r -> Mth (restrict f T) L r ->
  (FullValues (restrict f T) L m old /\
   forall L' r', lenN L' = m -> Forall (fun e : bytes => lenN e = hs) L' ->
     logRoot (restrict f T) hs m old = Ok r' -> Mth (restrict f T) L' r' -> L' = firstn (N.to_nat m) L)
  \/ collisionIn f T.
Proof.
  intros Hs Hh Hm EL FL E ER M. destruct (restrict_collision f T) as [CF|]; auto. left.
  set (H := restrict f T) in *. assert (HS : sized H hs) by now apply restrict_sized.
  destruct (verifyBatch_sound H hs (Some (m, old)) entries n nP values proof fs ad L r) as (A & B & C & D); auto.
  split; [auto|]. intros L' r' EL' FL' ER' M'.
  assert (Hm1 : 1 <= m <= two63).
  { unfold logRoot in ER'. rewrite maxTreeSize_two63 in ER'. destruct (N.eqb_spec m 0); [discriminate|].
    destruct (N.ltb_spec two63 m); [discriminate|]. lia. }
  apply FullValues_firstn in D; [|lia].
  assert (Ef : lenN (firstn (N.to_nat m) L) = m) by (unfold lenN in *; rewrite firstn_length; lia).
  assert (Ff : Forall (fun e : bytes => lenN e = hs) (firstn (N.to_nat m) L)).
  { rewrite Forall_forall in *. intros x Hx. apply FL. rewrite <- (firstn_skipn (N.to_nat m) L). apply in_or_app. auto. }
  apply (Mth_inj H hs L' _ r'); auto; [congruence|].
  apply (logRoot_spec H hs HS Hh (firstn (N.to_nat m) L) old); rewrite ?Ef; auto.
Qed.
