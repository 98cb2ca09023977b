(** The stored log after any number of appends. *)
From Verif Require Import Base BaseProofs LogMathModel LogMathSpec LogTreeModel LogTreeSpec NodeMathProofs LogMathProofs LogMathProofs2 LogTreeProofs LogAppendProofs LogVerifyProofs LogVerifyProofs2 LogTreeProofs3 LogChunkModel LogChunkSpec LogChunkProofs LogChunkProofs2 LogChunkProofs3 LogChunkProofs4 LogChunkProofs5.

Lemma existsb_In (l : list N) x : existsb (N.eqb x) l = true <-> In x l.
Proof. rewrite existsb_exists. split; [intros (y & I & E0); apply N.eqb_eq in E0; now subst|intro I; exists x; split; [exact I|apply N.eqb_refl]]. Qed.

Lemma fold_mput {A} (ws : list (N * A)) (g : N -> A) : (forall w, In w ws -> snd w = g (fst w)) -> forall st id,
  mget (fold_left (fun st w => mput st (fst w) (snd w)) ws st) id = if existsb (N.eqb id) (map fst ws) then Some (g id) else mget st id.
Proof.
  intro G. induction ws as [|[k v] ws IH]; intros st id; [reflexivity|]. cbn [fold_left map existsb fst snd].
  rewrite IH by (intros; apply G; now right). destruct (existsb (N.eqb id) (map fst ws)) eqn:X; [now rewrite orb_true_r|].
  rewrite orb_false_r. destruct (N.eqb_spec id k) as [->|Hne].
  - rewrite mget_mput_eq. f_equal. apply (G (k, v)). now left.
  - now rewrite mget_mput_neq by auto.
Qed.

Section Hash.
Variable f : bytes -> bytes.
Variable hs : N.
Hypothesis Hf : forall x, lenN (f x) = hs.
Hypothesis Hhs : 0 < hs.
Variable L : list bytes.
Hypothesis HL : Forall (fun e : bytes => lenN e = hs) L.
Hypothesis HL63 : lenN L <= two63.

Local Notation V := (hval f L).

Lemma tagK_tagged k v : tagged (2 ^ k) v = tagK k v.
Proof.
  unfold tagged, tagK. destruct (N.eqb_spec k 0) as [->|Hk]; [reflexivity|].
  destruct (N.eqb_spec (2 ^ k) 1) as [E0|]; [|reflexivity]. exfalso. replace k with (k - 1 + 1) in E0 by lia. rewrite pow2_S in E0. lia.
Qed.

Lemma hval_NodeVal m : forall k q, k = N.of_nat m -> fullN (lenN L) k q = true -> NodeVal (full f) L (q * 2 ^ k) (2 ^ k) (V k q).
Proof.
  induction m as [|m IH]; intros k q Ek F.
  - assert (k = 0) by lia. subst k. rewrite N.pow_0_r, N.mul_1_r. apply NodeVal_one. unfold hval. cbn [N.to_nat hvalF].
    rewrite full_iff, N.pow_0_r in F. apply nth_error_nth'. unfold lenN in F. lia.
  - assert (E1 : k = N.of_nat m + 1) by lia. remember (N.of_nat m) as j eqn:Ej. rewrite E1 in *. clear Ek E1. destruct (full_child _ _ _ F) as [F1 F2].
    pose proof (IH j (2 * q) eq_refl F1) as V1. pose proof (IH j (2 * q + 1) eq_refl F2) as V2.
    pose proof (pow2_pos j) as P. rewrite full_iff in F.
    rewrite pow2_S in *. apply NodeVal_step; [lia|nia|]. rewrite <- pow2_S, (split_pow2 1 eq_refl), pow2_S.
    exists (V j (2 * q)), (V j (2 * q + 1)).
    replace (2 * 2 ^ j - 2 ^ j) with (2 ^ j) by lia. rewrite !tagK_tagged.
    split; [now replace (q * (2 * 2 ^ j)) with (2 * q * 2 ^ j) by lia|].
    split; [now replace (q * (2 * 2 ^ j) + 2 ^ j) with ((2 * q + 1) * 2 ^ j) by lia|].
    unfold full. f_equal. symmetry. apply (V_succ f hs Hhs).
Qed.

(** ** One append *)
Lemma marshal_all n s : n + 1 <= lenN L -> setInv f L n 64 s -> forall ids, (forall id, In id ids -> has s id) ->
  exists ws, mapM (fun id => match mget (cs_chunks s) id with
                  | None => Panic "nil pointer dereference"
                  | Some c => let* b := chunkMarshal c in Ok (id, b) end) ids = Ok ws /\
    map fst ws = ids /\ forall w, In w ws -> exists b p, fst w = nid (b + 3) p /\ snd w = chunkData f L (n + 1) b p.
Proof.
  intros Hn I. induction ids as [|id ids IH]; intro Hh; [exists []; split; [reflexivity|split; [reflexivity|intros w []]]|].
  destruct IH as (ws & E1 & E2 & E3); [intros; apply Hh; now right|]. cbn [mapM].
  pose proof (Hh id (or_introl eq_refl)) as H0. apply mget_mhas in H0. destruct (mget (cs_chunks s) id) as [c|] eqn:G; [|congruence].
  destruct (I _ _ G) as (b & p & E4 & H1 & H2 & C). unfold sizeAt in C. replace (b <? 64) with true in C by lia.
  rewrite (marshal_spec f hs Hf Hhs L HL (n + 1) b p c Hn C). cbn [bind]. rewrite E1. cbn [bind]. eexists. split; [reflexivity|].
  cbn [map fst]. split; [now rewrite E2|]. intros w [<-|I2]; [exists b, p; auto|now apply E3].
Qed.

Lemma parts_zs n parts : 1 <= n -> Parts 0 n parts -> exists zs, map nodeOf parts = map nidp zs /\
  Forall2 (fun part z => fst part = snd z * 2 ^ fst z /\ snd part = 2 ^ fst z) parts zs /\
  Forall (fun z => N.odd (n / 2 ^ fst z) = true /\ snd z = n / 2 ^ fst z - 1) zs.
Proof.
  intros Hn P. pose proof (Parts_bits _ _ _ Hn P) as B.
  assert (B' : forall z, In z parts -> exists j, snd z = 2 ^ j /\ N.odd (n / 2 ^ j) = true /\ fst z = 2 ^ j * (n / 2 ^ j - 1)).
  { intros [b l] I. apply B in I as (j & A1 & A2 & A3). exists j. auto. }
  clear B P. induction parts as [|[a l] parts IH]; [exists []; split; [reflexivity|split; constructor]|].
  destruct IH as (zs & E1 & F1 & F2); [intros; apply B'; now right|].
  destruct (B' (a, l) (or_introl eq_refl)) as (j & A1 & A2 & A3). cbn [fst snd] in *. exists ((j, n / 2 ^ j - 1) :: zs).
  cbn [map]. split; [|split].
  - f_equal; [|exact E1]. unfold nodeOf, nidp. cbn [fst snd]. rewrite A1, A3, N.mul_comm. apply nodeId_nid.
  - constructor; [|exact F1]. cbn [fst snd]. rewrite A1, A3. split; [apply N.mul_comm|reflexivity].
  - constructor; [|exact F2]. cbn [fst snd]. auto.
Qed.

Lemma treeAppend_spec n st v : n < lenN L -> nth_error L (N.to_nat n) = Some v -> storeOk f L n st ->
  exists fs st', treeAppend (full f) hs st n v = Ok (fs, st') /\ storeOk f L (n + 1) st' /\ FullValues (full f) L (n + 1) fs.
Proof.
  intros Hn Ev St. assert (Hn63 : n < two63) by lia.
  assert (Hlv : lenN v = hs) by (rewrite Forall_forall in HL; apply HL; eapply nth_error_In; eauto).
  assert (EV : V 0 (n / 2 ^ 0) = v).
  { rewrite N.pow_0_r, N.div_1_r. unfold hval. cbn [N.to_nat hvalF]. now apply nth_error_nth. }
  unfold treeAppend. rewrite maxTreeSize_two63. replace (two63 <=? n) with false by lia.
  unfold wrongSize. rewrite Hlv, N.eqb_refl. cbn [negb].
  rewrite mul64_small by (unfold two63, two64 in *; lia). rewrite add64_small by (unfold two63, two64 in *; lia).
  rewrite directPath_edge by exact Hn63. cbn [bind]. rewrite path_edge by exact Hn63.
  destruct (already n Hn63) as (ae & Eae & Iae). rewrite Eae. cbn [bind]. clear Eae.
  assert (Epath : 2 * n :: map (E n) (filter (fullLv n) (rowsF 4 15)) = map (E n) (pathRows n)) by (unfold pathRows; cbn [map]; now rewrite edge_0).
  rewrite Epath. rewrite mapM_path; [|exact Hn63|intros b I; apply (pathRows_In n Hn63) in I; tauto]. cbn [bind].
  set (pcs := map (pathId n) (pathRows n)).
  (* what is fetched *)
  assert (TF : exists zs, filter (fun c => existsb (N.eqb c) ae) pcs ++ ae = map nidp zs /\
     Forall (fun z => fst z <= 63 /\ nidp z < two64 - 1 /\ fullN n (bot (fst z)) (8 * pos (fst z) (snd z)) = true) zs).
  { apply Forall_ex_map. apply Forall_forall. intros id I.
    assert (Ia : In id ae). { apply in_app_or in I as [I|I]; [|exact I]. apply filter_In in I as [_ I]. now apply existsb_In. }
    apply Iae in Ia as (j & T & ->). exists (bot j + 3, pos j (n / 2 ^ j - 1)). split; [reflexivity|].
    pose proof (copath_full n Hn63 j T) as F. destruct (nid_full_lt n _ _ ltac:(lia) F) as [_ J63].
    destruct (bot_props j) as [B1 B2]. destruct (chunk_self (bot j) (pos j (n / 2 ^ j - 1)) B1) as [S1 S2].
    pose proof (bot_le60 j J63). cbn [fst snd]. unfold nidp. cbn [fst snd]. split; [lia|]. split; [apply (chunk_lt n); [lia|exact F]|].
    rewrite S1, S2. now apply full_bottom. }
  destruct TF as (zs & Ezs & Fzs).
  destruct (treeFetch_spec f hs Hf Hhs L HL n st zs ltac:(lia) St Fzs) as (s0 & E0 & M0 & I0 & H0).
  rewrite Ezs, E0. cbn [bind]. clear E0.
  assert (H0' : forall id, has s0 id <-> In id ae).
  { intro id. rewrite H0. split.
    - intros (z & Iz & ->). assert (In (nidp z) (filter (fun c => existsb (N.eqb c) ae) pcs ++ ae)) as I by (rewrite Ezs; now apply in_map).
      assert (Ia : In (nidp z) ae). { apply in_app_or in I as [I|I]; [|exact I]. apply filter_In in I as [_ I]. now apply existsb_In. }
      pose proof Ia as Ia'. apply Iae in Ia as (j & T & Ej). unfold nidp in Ej, Ia'. apply nid_inj in Ej. destruct Ej as [Ej1 Ej2].
      destruct (bot_props j) as [B1 _]. destruct (chunk_self (bot j) (snd z) B1) as [S1 S2]. rewrite Ej1, S1, S2. rewrite <- Ej1. exact Ia'.
    - intro Ia. assert (In id (filter (fun c => existsb (N.eqb c) ae) pcs ++ ae)) as I by (apply in_or_app; now right).
      rewrite Ezs in I. apply in_map_iff in I as (z & <- & Iz). exists z. split; [exact Iz|].
      apply Iae in Ia as (j & T & Ej). unfold nidp in Ej |- *. apply nid_inj in Ej. destruct Ej as [Ej1 Ej2].
      destruct (bot_props j) as [B1 _]. destruct (chunk_self (bot j) (snd z) B1) as [S1 S2]. now rewrite Ej1, S1, S2. }
  assert (SI0 : setInv f L n 0 s0).
  { intros id c G. destruct (I0 _ _ G) as (b & p & A1 & A2 & A3 & A4). exists b, p. unfold sizeAt. replace (b <? 0) with false by lia. auto. }
  (* new chunks *)
  destruct (setAdd_spec f hs Hf Hhs L HL n (nodup N.eq_dec (filter (fun c => negb (existsb (N.eqb c) ae)) pcs)) ltac:(lia) (NoDup_nodup _ _)) with (s := s0) as (s1 & E1 & I1 & H1 & M1).
  { apply Forall_forall. intros id I. apply nodup_In in I. apply filter_In in I as [I N1]. unfold pcs in I. apply in_map_iff in I as (b & <- & Ib).
    apply (pathRows_In n Hn63) in Ib as (B1 & B2 & B3). exists b, (n / 2 ^ (b + 3)). split; [reflexivity|]. split; [exact B1|]. split; [exact B2|].
    split; [now apply pathId_lt|]. destruct (fullN n b (8 * (n / 2 ^ (b + 3)))) eqn:F; [|reflexivity]. exfalso.
    destruct (path_in_copath n Hn63 b B1 F) as (j & J1 & J2 & J3). apply negb_true_iff in N1.
    assert (X : existsb (N.eqb (pathId n b)) ae = true); [|congruence].
    apply existsb_In, Iae. exists j. split; [exact J1|]. unfold pathId. now rewrite J2, J3. }
  { exact SI0. }
  { intros id I X. apply nodup_In in I. apply filter_In in I as [_ N1]. apply H0' in X. apply existsb_In in X. rewrite X in N1. discriminate. }
  rewrite E1. cbn [bind]. clear E1.
  assert (HP : forall b, b mod 4 = 0 -> fullLv n b = true -> b <= 60 -> has s1 (pathId n b)).
  { intros b B1 B2 B3. apply H1. destruct (existsb (N.eqb (pathId n b)) ae) eqn:X.
    - left. apply H0'. now apply existsb_In.
    - right. apply nodup_In, filter_In. rewrite X. split; [|reflexivity]. apply in_map. apply (pathRows_In n Hn63). auto. }
  assert (HC : forall j, N.testbit n j = true -> has s1 (nid (bot j + 3) (pos j (n / 2 ^ j - 1)))).
  { intros j T. apply H1. left. apply H0', Iae. exists j. auto. }
  (* the leaf *)
  destruct (row_set f hs Hhs L n 0 s1 Hn63 eq_refl ltac:(lia) (fullLv_0 n Hn63) I1) as (s2 & E2 & I2 & H2 & M2).
  { apply HP; [reflexivity|now apply fullLv_0|lia]. }
  rewrite EV, edge_0 in E2 by exact Hn63. rewrite N.eqb_refl in E2. rewrite E2. cbn [bind]. clear E2.
  (* the path *)
  unfold pathRows at 1. cbn [map tl].
  destruct (setPath_spec f hs Hf Hhs L HL n Hn63 ltac:(lia) 15 4 s2 eq_refl ltac:(lia) eq_refl I2) as (s3 & E3 & I3 & H3 & M3).
  { intros b B1 B2 B3. apply H2. now apply HP. }
  { intros j T. apply H2. now apply HC. }
  rewrite E3. cbn [bind]. clear E3.
  assert (M : forall id, In id (cs_modified s3) <-> exists b, In b (pathRows n) /\ id = pathId n b).
  { intro id. rewrite M3, M2, M1, M0. cbn [In]. unfold pathRows. cbn [In]. split.
    - intros [[<-|[]]|(b & Ib & ->)]; [exists 0; auto|exists b; auto].
    - intros (b & [<-|Ib] & ->); [left; left; reflexivity|right; exists b; auto]. }
  assert (HH : forall id, has s3 id <-> has s1 id) by (intro id; now rewrite H3, H2).
  unfold setMarshal.
  destruct (marshal_all n s3 ltac:(lia) I3 (nodup N.eq_dec (cs_modified s3))) as (ws & E4 & F4 & D4).
  { intros id I. apply nodup_In in I. apply M in I as (b & Ib & ->). apply HH. apply (pathRows_In n Hn63) in Ib as (B1 & B2 & B3). now apply HP. }
  rewrite E4. cbn [bind]. clear E4.
  destruct (fullSubtrees_root (n + 1)) as (parts & E5 & P5); [lia|]. rewrite E5. cbn [bind]. clear E5.
  destruct (parts_zs (n + 1) parts ltac:(lia) P5) as (zz & E6 & F6 & O6). rewrite E6.
  assert (FZ : Forall (fun z => fullN (n + 1) (fst z) (snd z) = true /\ has s3 (nid (bot (fst z) + 3) (pos (fst z) (snd z)))) zz).
  { eapply Forall_impl; [|exact O6]. intros [j q] [O1 O2]. cbn [fst snd] in *. subst q.
    destruct (fulls_where n Hn63 j O1) as [F W]. split; [exact F|]. apply HH.
    destruct W as [(b & Ib & ->)|[T ->]].
    - apply (pathRows_In n Hn63) in Ib as (B1 & B2 & B3). now apply HP.
    - now apply HC. }
  assert (Hle : n + 1 <= lenN L) by lia.
  destruct (getAll_spec f hs Hf Hhs L HL n 64 zz (or_introl Hle) HL63 s3 I3) as (s4 & E7).
  { eapply Forall_impl; [|exact FZ]. intros z [X Y]. split; [exact Y|].
    destruct (nid_full_lt (n + 1) _ _ ltac:(lia) X) as [_ Z]. pose proof (bot_le60 _ Z). unfold sizeAt. now replace (bot (fst z) <? 64) with true by lia. }
  rewrite E7. cbn [bind]. do 2 eexists. split; [reflexivity|]. split.
  - (* the store *)
    intros b p B1 B2 F.
    assert (G : forall st0 id, mget (fold_left (fun (st : list (N * bytes)) w => mput st (fst w) (snd w)) ws st0) id =
       if existsb (N.eqb id) (map fst ws) then Some (match find (fun w => fst w =? id) ws with Some w => snd w | None => [] end) else mget st0 id).
    { intros st0 id. apply (fold_mput ws (fun id => match find (fun w => fst w =? id) ws with Some w => snd w | None => [] end)).
      intros w Iw. destruct (find (fun w' => fst w' =? fst w) ws) as [w'|] eqn:Fi.
      - apply find_some in Fi as [Iw' Ew']. apply N.eqb_eq in Ew'.
        destruct (D4 w Iw) as (b1 & p1 & X1 & X2). destruct (D4 w' Iw') as (b2 & p2 & Y1 & Y2).
        rewrite X1, Y1 in Ew'. apply nid_inj in Ew'. assert (b2 = b1) by lia. assert (p2 = p1) by tauto. subst. congruence.
      - exfalso. pose proof (find_none _ _ Fi w Iw) as Q. cbn in Q. rewrite N.eqb_refl in Q. discriminate. }
    rewrite G, F4. destruct (existsb (N.eqb (nid (b + 3) p)) (nodup N.eq_dec (cs_modified s3))) eqn:X.
    + f_equal. apply existsb_In in X. rewrite <- F4 in X. apply in_map_iff in X as (w & Ew & Iw).
      destruct (find (fun w' => fst w' =? nid (b + 3) p) ws) as [w'|] eqn:Fi.
      * apply find_some in Fi as [Iw' Ew']. apply N.eqb_eq in Ew'. destruct (D4 w' Iw') as (b2 & p2 & Y1 & Y2).
        rewrite Ew' in Y1. apply nid_inj in Y1. assert (b2 = b) by lia. assert (p2 = p) by (symmetry; tauto). now subst.
      * pose proof (find_none _ _ Fi w Iw) as Q. cbn in Q. rewrite Ew, N.eqb_refl in Q. discriminate.
    + assert (NE : forall o, o < 8 -> (8 * p + o + 1) * 2 ^ b <> n + 1).
      { intros o Ho Eo. assert (existsb (N.eqb (nid (b + 3) p)) (nodup N.eq_dec (cs_modified s3)) = true); [|congruence].
        apply existsb_In, nodup_In, M. exists b. pose proof (pow2_pos b) as PB.
        assert (Eq : n / 2 ^ b = 8 * p + o) by (symmetry; apply (N.div_unique n (2 ^ b) (8 * p + o) (2 ^ b - 1)); nia).
        split.
        - apply (pathRows_In n Hn63). split; [exact B1|]. split; [exact B2|]. unfold fullLv. rewrite Eq. apply N.eqb_eq. exact Eo.
        - unfold pathId. f_equal. rewrite N.pow_add_r, <- N.div_div by (try lia; discriminate). rewrite Eq. change (2 ^ 3) with 8.
          apply (N.div_unique _ 8 p o); lia. }
      assert (FE : forall o, o < 8 -> fullN (n + 1) b (8 * p + o) = fullN n b (8 * p + o)).
      { intros o Ho. specialize (NE o Ho). unfold fullN. destruct (N.leb_spec ((8 * p + o + 1) * 2 ^ b) n); [apply N.leb_le; lia|apply N.leb_gt; lia]. }
      rewrite St.
      * f_equal. unfold chunkData. f_equal. f_equal. apply filter_ext_in. intros o Io. symmetry. apply FE.
        cbn [In] in Io. lia.
      * exact B1.
      * exact B2.
      * rewrite <- F. symmetry. specialize (FE 0 ltac:(lia)). now rewrite N.add_0_r in FE.
  - exists parts. split; [exact P5|]. clear -F6 FZ Hf Hhs HL HL63 Hn. revert FZ. induction F6 as [|[a l] [k q] parts zz [A1 A2] F IH]; intro FZ; constructor.
    + cbn [fst snd] in *. rewrite A1, A2. inversion FZ as [|x y [X Y] Z]; subst. cbn [fst snd] in *.
      apply (hval_NodeVal (N.to_nat k)); [lia|]. eapply full_mono; [|exact X]. lia.
    + apply IH. now inversion FZ.
Qed.

(** ** Any history *)
Definition appendAll (es : list bytes) (s : N * list bytes * logStore) : res (N * list bytes * logStore) :=
  foldM (fun s e => let* (fs, st) := treeAppend (full f) hs (snd s) (fst (fst s)) e in Ok (fst (fst s) + 1, fs, st)) es s.

Lemma appendAll_spec es : forall n fs st, n + lenN es = lenN L -> skipn (N.to_nat n) L = es -> storeOk f L n st -> (0 < n -> FullValues (full f) L n fs) ->
  exists fs' st', appendAll es (n, fs, st) = Ok (lenN L, fs', st') /\ storeOk f L (lenN L) st' /\ (0 < lenN L -> FullValues (full f) L (lenN L) fs').
Proof.
  induction es as [|e es IH]; intros n fs st El Es St FV; unfold appendAll; cbn [foldM].
  - assert (n = lenN L) by (unfold lenN in El; cbn in El; unfold lenN in *; lia). subst n. eauto.
  - cbn [fst snd]. assert (Hn : n < lenN L) by (unfold lenN in *; cbn [List.length] in El; lia).
    assert (Ev : nth_error L (N.to_nat n) = Some e).
    { rewrite <- (firstn_skipn (N.to_nat n) L), Es. rewrite nth_error_app2; rewrite firstn_length_le by (unfold lenN in *; lia); [|lia].
      now rewrite Nat.sub_diag. }
    destruct (treeAppend_spec n st e Hn Ev St) as (fs1 & st1 & E1 & S1 & V1). rewrite E1. cbn [bind].
    apply IH; auto.
    + unfold lenN in *. cbn [List.length] in El. lia.
    + replace (N.to_nat (n + 1)) with (S (N.to_nat n)) by lia. clear -Es. revert Es. generalize (N.to_nat n). intro m. revert L.
      induction m as [|m IH]; intros [|x l] Es; cbn in *; try discriminate; [now injection Es|]. apply IH. exact Es.
Qed.

(** ** Requests *)
Lemma covers_zs n pz : n <= two63 -> 1 <= n -> Forall (fun z => Range n (fst z) (snd z) /\ pow2 (snd z)) pz ->
  exists zs, map nodeOf pz = map nidp zs /\ Forall (fun z => fullN n (fst z) (snd z) = true) zs /\
    Forall2 (fun part z => fst part = snd z * 2 ^ fst z /\ snd part = 2 ^ fst z) pz zs.
Proof.
  intros Hn H1. induction 1 as [|[a l] pz [R P] F IH]; [exists []; repeat split; constructor|].
  destruct IH as (zs & E1 & F1 & F2). cbn [fst snd] in *.
  assert (Hn' : 1 <= n <= two63) by lia. pose proof (covers_Range n a l Hn' R) as C.
  pose proof (proj1 (pow2_iff n _ _ _ Hn' C) P) as El. pose proof (covers_lt64 _ _ _ _ Hn' C) as X.
  destruct (nid_ex63 _ X) as (k & q & E2 & Hk & Lv). rewrite Lv in El.
  destruct C as (C1 & C2 & C3 & C4 & C5). rewrite E2, lo_nid in C3 by lia. rewrite pow2_S in C3.
  assert (Ea : a = q * 2 ^ k) by lia.
  exists ((k, q) :: zs). cbn [map]. split; [|split].
  - f_equal; [|exact E1]. unfold nodeOf, nidp. cbn [fst snd]. exact E2.
  - constructor; [|exact F1]. cbn [fst snd]. rewrite full_iff. lia.
  - constructor; [|exact F2]. cbn [fst snd]. auto.
Qed.

Lemma batchCopath_nsort l n nP m : batchCopath (nsort l) n nP m = batchCopath l n nP m.
Proof.
  unfold batchCopath. destruct (optSubtrees nP) as [inc| | |]; cbn [bind]; try reflexivity.
  destruct (optSubtrees m) as [ret| | |]; cbn [bind]; try reflexivity. f_equal.
  apply sset_ext; [apply dedupSort_sset|apply dedupSort_sset|]. intro x. rewrite !dedupSort_In, !in_app_iff, !in_map_iff.
  assert (P : forall y, In y (nsort l) <-> In y l).
  { intro y. split; apply Permutation.Permutation_in; [apply nsort_perm|apply Permutation.Permutation_sym, nsort_perm]. }
  split; (intros [(y & A & B)|X]; [left; exists y; split; [exact A|now apply P]|right; exact X]).
Qed.

Definition okArgs (n : N) (entries : list N) (nP m : option N) : Prop :=
  1 <= n /\ Forall (fun i => i < n) entries /\ NoDup entries /\ optSize n nP /\ optSize n m.

Lemma getBatch_spec N0 st entries n nP m : N0 <= lenN L -> storeOk f L N0 st -> 1 <= n <= N0 -> Forall (fun i => i < n) entries -> optSize n nP -> optSize n m -> 
  exists cp proof, batchCopath entries n nP m = Ok cp /\ 
    Forall2 (fun x w => forall a len, Range n a len -> nodeId a len = x -> NodeVal (full f) L a len w) cp proof /\
    (let* cp := batchCopath (nsort entries) n nP m in fetchSpecific (full f) hs st cp) = Ok proof.
Proof.
  intros HN St Hn Fe OP Om. assert (Hn' : 1 <= n <= two63) by lia.
  destruct (copath_setup entries n nP m Hn' Fe OP Om) as (pP & pm & pz & _ & _ & _ & E0 & FR & _).
  rewrite batchCopath_nsort, E0. cbn [bind]. 
  assert (FZ : Forall (fun z => Range n (fst z) (snd z) /\ pow2 (snd z)) pz) by (rewrite !Forall_app in FR; tauto).
  destruct (covers_zs n pz ltac:(lia) ltac:(lia) FZ) as (zs & E1 & F1 & F2).
  assert (F1' : Forall (fun z => fullN N0 (fst z) (snd z) = true) zs).
  { eapply Forall_impl; [|exact F1]. intros z X. eapply full_mono; [|exact X]. lia. }
  exists (map nodeOf pz), (map (fun z => V (fst z) (snd z)) zs). split; [reflexivity|]. split.
  - clear E0 E1 FR. revert F1 FZ. induction F2 as [|[a l] [k q] pz zs [A1 A2] F IH]; intros F1 FZ; cbn [map]; constructor.
    + inversion F1 as [|x1 y1 X1 X2]; subst. inversion FZ as [|x2 y2 [Y1 Y2] Y3]; subst. cbn [fst snd] in *. subst a l.
      intros a len R En. unfold nodeOf in En. cbn [fst snd] in En.
      pose proof (covers_Range n _ _ Hn' R) as C1. pose proof (covers_Range n _ _ Hn' Y1) as C2. rewrite En in C1.
      destruct (covers_fun _ _ _ _ _ _ C1 C2) as [-> ->]. apply (hval_NodeVal (N.to_nat k)); [lia|]. eapply full_mono; [|exact X1]. lia.
    + apply IH; [inversion F1'; assumption|inversion F1; assumption|inversion FZ; assumption].
  - unfold fetchSpecific. rewrite E1.
    assert (FB : Forall (fun z => fst z <= 63 /\ nidp z < two64 - 1 /\ fullN N0 (bot (fst z)) (8 * pos (fst z) (snd z)) = true) zs).
    { eapply Forall_impl; [|exact F1']. intros [k q] X. cbn [fst snd] in *. destruct (nid_full_lt N0 k q ltac:(lia) X) as [X1 X2].
      split; [exact X2|]. split; [exact X1|]. now apply full_bottom. }
    destruct (treeFetch_spec f hs Hf Hhs L HL N0 st zs HN St FB) as (s & E2 & _ & I2 & H2). rewrite E2. cbn [bind].
    destruct (getAll_spec f hs Hf Hhs L HL N0 0 zs (or_intror (conj eq_refl HN)) HL63 s) as (s' & E3).
    { intros id c G. destruct (I2 _ _ G) as (b & p & A1 & A2 & A3 & A4). exists b, p. unfold sizeAt. replace (b <? 0) with false by lia. auto. }
    { apply Forall_forall. intros z Iz. rewrite Forall_forall in F1'. split; [apply H2; exists z; auto|].
      unfold sizeAt. replace (bot (fst z) <? 0) with false by lia. now apply F1'. }
    rewrite E3. reflexivity.
Qed.
End Hash.
