(** The client's verification functions end with a result or an error: the functions. *)
From Verif Require Import Base BaseProofs LogMathModel LogTreeModel LogTreeSpec TransMathModel TransMathSpec TransMathProofs TransMathProofs2 LaddersModel LaddersProofs
  PrefixModel PrefixVerifyProofs3 CodecModel CodecSpec AlgModel AlgSpec AlgProofs AlgProofs2 AlgProofs3 AlgProofs4 HandleModel HandleProofs
  StoreModel CommitModel MutateModel MutateProofs5 AuditorProofs5 ServerModel ClientModel CalmSpec CalmProofs CalmProofs2 CodecProofs CodecProofs2 CodecProofs3.
Open Scope N_scope.
Local Open Scope list_scope.

(** ** Encodings *)


Lemma writeSlice_calm {A} k (w : A -> put) l : (forall a, calm (w a)) -> calm (writeSlice k w l).
Proof. intro H. unfold writeSlice. destruct (_ <? _); [exact I|]. apply calm_bind'; [apply mapM_calm; auto|]. intro; exact I. Qed.
Lemma pubConfig_calm c : calm (pubConfigMarshal c).
Proof.
  unfold pubConfigMarshal. repeat first [apply calm_bind'; [|intros]|apply writeBytes_calm|exact I|destruct (_ =? _)].
Qed.
Lemma treeHead_calm c n r : calm (treeHeadTBS c n r).
Proof. unfold treeHeadTBS. apply calm_bind'; [apply pubConfig_calm|]. intro; exact I. Qed.
Lemma auditorHead_calm c t n r : calm (auditorTreeHeadTBS c t n r).
Proof. unfold auditorTreeHeadTBS. apply calm_bind'; [apply pubConfig_calm|]. intro; exact I. Qed.
Lemma updateTBS_calm c l v x : calm (updateTBS c l v x).
Proof. unfold updateTBS. apply calm_bind'; [apply pubConfig_calm|]. intro. repeat first [apply calm_bind'; [|intros]|apply writeBytes_calm|exact I]. Qed.
Lemma clientState_calm s es : calm (clientStateMarshal s es).
Proof.
  unfold clientStateMarshal, treeHeadMarshal. repeat first [apply calm_bind'; [|intros]|apply writeBytes_calm|apply writeSlice_calm; intros|exact I].
  destruct (cs_auditor s); [|exact I]. unfold auditorTreeHeadMarshal. apply calm_bind'; [apply writeBytes_calm|]. intro; exact I.
Qed.
Lemma labelState_calm s : calm (labelStateMarshal s).
Proof.
  unfold labelStateMarshal, ownerStateMarshal. apply calm_bind'; [apply writeSlice_calm; intro; exact I|]. intro.
  destruct (cl_owner s); repeat first [apply calm_bind'; [|intros]|apply writeSlice_calm; intros|exact I].
Qed.

Lemma safe_calm {A} (r : res A) : safe r <-> calm r.
Proof. split; [intros [[a ->]|[m ->]]; exact I|]. destruct r; cbn; try tauto; [left|right]; eauto. Qed.

Lemma parseLabel_noOwner hs raw ls : parseLabelState hs raw = Ok ls -> cl_owner ls = None.
Proof.
  unfold parseLabelState, newLabelState. intro E.
  destruct (readSlice 4 newMapEntry raw) as [[m r1]| | |]; cbn [bind] in E; try discriminate.
  destruct (readOptional r1) as [[p r2]| | |]; cbn [bind] in E; try discriminate.
  destruct p.
  - unfold newOwnerState, readInt in E. destruct (readNum 8 r2) as [[s r3]| | |]; cbn [bind] in E; discriminate.
  - cbn [bind] in E. destruct (readSlice 4 (newRetainedVersion hs) r2) as [[v r4]| | |]; cbn [bind] in E; [destruct r4; [|discriminate]|..]; injection E as <-; reflexivity.
Qed.
Lemma parseLabel_calm hs raw : calm (parseLabelState hs raw).
Proof.
  unfold parseLabelState, newLabelState. apply calm_bind'; [|intros [x r]; destruct r; exact I].
  apply calm_bind'; [apply safe_calm, (codec_safe (codec_slice 4 _ _ _ codec_mapEntry))|]. intros [m r1].
  apply calm_bind'; [apply safe_calm, (codec_safe codec_optional)|]. intros [p r2].
  apply calm_bind'.
  - destruct p; [|exact I]. unfold newOwnerState. apply calm_bind'; [|intros [x r]; exact I]. apply calm_bind'; [apply safe_calm, (codec_safe (codec_num 8))|].
    intros [s r3]. exact I.
  - intros [o r3]. destruct (readSlice 4 (newRetainedVersion hs) r3) as [[? ?]| | |]; exact I.
Qed.
Lemma parseState_calm c raw : calm (parseState c raw).
Proof.
  unfold parseState, newClientState. apply calm_bind'; [|intros [x r]; destruct r; exact I].
  apply calm_bind'; [apply safe_calm, (codec_safe codec_treeHead)|]. intros [th r1].
  apply calm_bind'.
  { destruct (_ =? _); [|exact I]. apply calm_bind'; [apply safe_calm, (codec_safe codec_auditorTreeHead)|]. intros [a r]. exact I. }
  intros [ath r2]. apply calm_bind'; [apply safe_calm, (codec_safe (codec_slice 1 _ _ _ (codec_full (pc_hs c))))|]. intros [fs r3].
  apply calm_bind'; [apply safe_calm, (codec_safe (codec_slice 1 _ _ _ (codec_indexedLogEntry (pc_hs c))))|]. intros [es r4].
  apply calm_bind'; [|intro; exact I]. generalize (@nil (N * logEntry)). induction es as [|[p e] t IH]; intro acc; [exact I|]. cbn [buildEntries].
  destruct (mhas acc p); [exact I|apply IH].
Qed.

(** What is stored has the size and the contact entries it was made from. *)
Lemma marshal_size c s es raw s' : u64ok (th_size (cs_head s)) -> clientStateMarshal s es = Ok raw -> parseState c raw = Ok s' -> cs_head s' = cs_head s.
Proof.
  intros O E P. unfold clientStateMarshal in E. apply bind_ok in E as (h & Eh & E). apply bind_ok in E as (a & Ea & E). apply bind_ok in E as (f & Ef & E).
  apply bind_ok in E as (e & Ee & E). injection E as <-.
  unfold parseState in P. apply bind_ok in P as ([x r] & P & Er). destruct r; [|discriminate]. injection Er as ->.
  unfold newClientState in P. rewrite (codec_rt codec_treeHead (cs_head s) h _ O Eh) in P. cbn [bind] in P.
  apply bind_ok in P as ([ath r2] & _ & P). apply bind_ok in P as ([fs r3] & _ & P). apply bind_ok in P as ([es' r4] & _ & P). apply bind_ok in P as (m & _ & P).
  injection P as <- _. reflexivity.
Qed.

Lemma marshal_contact hs ls raw ls' : Forall okMapEntry (cl_contact ls) -> labelStateMarshal ls = Ok raw -> parseLabelState hs raw = Ok ls' -> cl_contact ls' = cl_contact ls.
Proof.
  intros O E P. unfold labelStateMarshal in E. apply bind_ok in E as (m & Em & E).
  assert (exists rest, raw = m ++ rest) as (rest & ->).
  { destruct (cl_owner ls); apply bind_ok in E as (b & _ & E); injection E as <-; eauto. }
  unfold parseLabelState in P. apply bind_ok in P as ([x r] & P & Er). destruct r; [|discriminate]. injection Er as ->.
  unfold newLabelState in P. rewrite (codec_rt (codec_slice 4 _ _ _ codec_mapEntry) (cl_contact ls) m _ O Em) in P. cbn [bind] in P.
  apply bind_ok in P as ([p r2] & _ & P). apply bind_ok in P as ([o r3] & _ & P). destruct (readSlice _ _ _) as [[v r4]| | |]; injection P as <-; reflexivity.
Qed.

(** ** The verifier *)

Section Client.
Variable H : bytes -> option bytes.
Variable hs : N.
Variable c : pubConfig.
Variable now : N.
Variable vrfVerify : bytes -> bytes -> option bytes.
Variable sigVerify leafVerify audVerify : bytes -> bytes -> bool.
Variable visit : nat -> list (N * N) -> list N.
Hypothesis Hsized : sized H hs.
Hypothesis Hhs : hs = N.of_nat (pc_hs c).
Hypothesis Hwide : (255 <= 8 * pc_hs c)%nat.

Notation low := (lowProofs hs).
Definition like (v v' : cverifier) : Prop :=
  low (v_d v') /\ v_state v' = v_state v /\ v_fth v' = v_fth v /\ v_n v' = v_n v /\ v_m v' = v_m v.
Lemma like_refl v : low (v_d v) -> like v v.
Proof. unfold like. auto. Qed.
Lemma like_trans a b d : like a b -> like b d -> like a d.
Proof. unfold like. intuition congruence. Qed.

Lemma proofs_low p : okCombinedProof (pc_hs c) p -> Forall (lowProof (N.to_nat hs)) (cp_proofs p).
Proof.
  intros (_ & F & _). eapply Forall_impl; [|exact F]. intros q [Fr _] r Hr. rewrite Forall_forall in Fr. destruct (Fr r Hr) as [L _].
  rewrite Hhs, Nnat.Nat2N.id. lia.
Qed.

Lemma addRetained_keeps {S} es : forall d : dataProvider S,
  nice (fun d' => d_handle d' = d_handle d) (foldM (fun d e =>
    let* ts := addTimestamp (d_ts d) (fst e) (le_ts (snd e)) in
    let* rs := addPrefixTree (d_roots d) (fst e) (le_root (snd e)) in
    Ok (withRoots (withTs d ts) rs)) es d).
Proof.
  induction es as [|e t IH]; intro d; [reflexivity|]. cbn [foldM].
  pose proof (addTimestamp_calm (d_ts d) (fst e) (le_ts (snd e))) as C1. destruct (addTimestamp _ _ _) as [ts|m|m|]; cbn in C1; try contradiction; cbn [bind]; try exact I.
  pose proof (addPrefixTree_calm (d_roots d) (fst e) (le_root (snd e))) as C2. destruct (addPrefixTree _ _ _) as [rs|m|m|]; cbn in C2; try contradiction; cbn [bind]; try exact I.
  apply (IH (withRoots (withTs d ts) rs)).
Qed.

Lemma newCVerifier_nice state last fth proof : okCombinedProof (pc_hs c) proof -> okFullTreeHead c fth -> (forall k, last = Some k -> k < 2 ^ 64) ->
  nice (fun v => low (v_d v) /\ v_state v = state /\ v_fth v = fth /\ v_m v = last /\ v_n v < 2 ^ 64 /\
                 v_n v = match fth_head fth with Some th => th_size th | None => match last with Some k => k | None => 0 end end)
    (newCVerifier state last fth proof).
Proof.
  intros Op Of Hl. unfold newCVerifier. cbn zeta.
  apply (nice_then (fun d => d_handle d = newReceived proof)).
  { destruct state as [st|]; [|reflexivity]. unfold addRetained. apply (addRetained_keeps (cs_entries st)). }
  intros d Ed. assert (Ld : low d) by (unfold low; rewrite Ed; apply proofs_low; auto).
  unfold okFullTreeHead in Of. destruct (fth_head fth) as [th|] eqn:Eh.
  - cbn [bind nice v_d v_state v_fth v_m v_n]. repeat split; auto.
    assert (O : u64ok (th_size th)) by (destruct (fth_auditor fth); unfold okTreeHead in Of; tauto). exact O.
  - destruct last as [k|]; [|exact I]. cbn [bind nice v_d v_state v_fth v_m v_n]. repeat split; auto.
Qed.

Lemma execV_nice {A} (Q : A -> Prop) (p : prog A) v : wq okVersion Q p -> low (v_d v) -> nice (fun r => Q (fst r) /\ like v (snd r)) (execV H hs p v).
Proof.
  intros W L. unfold execV. cbn zeta. destruct (received_run H hs Q p (v_d v) W L) as [A1 A2].
  destruct (result _) as [a|m|m|]; cbn [bind nice fst snd] in *; try tauto. split; [exact A1|]. unfold like, setProvider. cbn. auto.
Qed.

Lemma vAddVersion_nice v ver out com : low (v_d v) -> nice (fun v' => like v v') (vAddVersion hs v ver out com).
Proof.
  intro L. unfold vAddVersion, addVersion. cbn zeta. destruct (negb _); [exact I|].
  destruct (match com with Some x => negb _ | None => false end); [exact I|]. destruct (mhas _ _); [exact I|]. cbn. unfold like, setProvider. cbn. auto.
Qed.
Lemma addLabelState_nice ls : forall v, low (v_d v) -> nice (like v) (addLabelState hs v ls).
Proof.
  unfold addLabelState. induction (cl_versions ls) as [|e t IH]; intros v L; [apply like_refl; auto|]. cbn [foldM].
  eapply nice_then; [apply vAddVersion_nice; auto|]. intros v' L'. eapply nice_mono; [|apply IH; apply L']. intros v'' L''. eapply like_trans; eauto.
Qed.
Lemma ladderSteps_nice label manual : forall vers ladder v, low (v_d v) -> nice (like v) (ladderSteps hs vrfVerify label v vers ladder manual).
Proof.
  induction vers as [|ver vers IH]; intros [|st ladder] v L; try (apply like_refl; exact L). cbn [ladderSteps].
  apply calm_then; [apply vrfInput_calm|]. intro input. destruct (vrfVerify _ _) as [out|]; [|exact I].
  assert (K : forall com, nice (like v) (let* v' := vAddVersion hs v ver out com in ladderSteps hs vrfVerify label v' vers ladder manual)).
  { intro com. eapply nice_then; [apply vAddVersion_nice; auto|]. intros v' L'. eapply nice_mono; [|apply IH; apply L']. intros v'' L''. eapply like_trans; eauto. }
  destruct (mget manual ver); destruct (ls_commitment st); try exact I; apply K.
Qed.
Lemma processLadder_nice v label ladder vers manual : low (v_d v) -> nice (like v) (processLadder hs vrfVerify v label ladder vers manual).
Proof. intro L. unfold processLadder. destruct (negb _); [exact I|]. apply ladderSteps_nice; auto. Qed.

Lemma verifyUpdateValue_calm label ver val : calm (verifyUpdateValue c leafVerify label ver val).
Proof.
  unfold verifyUpdateValue. destruct (negb _); [destruct (uv_sig val); exact I|]. apply calm_bind'; [apply updateTBS_calm|]. intro. destruct (leafVerify _ _); exact I.
Qed.

Lemma verifyTreeHead_calm v root rootP : low (v_d v) -> calm (verifyTreeHead H hs c sigVerify audVerify v root rootP).
Proof.
  intro L. unfold verifyTreeHead. destruct (fth_head _); [|destruct (v_state v); exact I].
  destruct (match v_state v with Some s => _ | None => false end); [exact I|]. apply calm_bind'; [apply treeHead_calm|]. intro. destruct (negb _); [exact I|].
  destruct (fth_auditor _) as [ath|]; [|exact I]. unfold verifyAuditorHead. apply calm_bind'.
  { destruct (v_state v) as [st|]; [|exact I]. destruct (cs_auditor st); [|exact I]. destruct (_ <? _); exact I. }
  intros _. apply calm_bind'; [apply (dpTs_calm H hs (v_d v) _ L)|]. intro. destruct (_ <? _); [exact I|]. destruct (_ <? _); [exact I|]. destruct (_ <? _); [exact I|].
  apply calm_bind'; [apply auditorHead_calm|]. intro. destruct (audVerify _ _); exact I.
Qed.

Lemma hs_pos : 0 < hs.
Proof. rewrite Hhs. lia. Qed.

Lemma checkFinish_calm v : low (v_d v) -> 1 <= v_n v < 2 ^ 64 -> (forall k, v_m v = Some k -> k <= v_n v) -> calm (checkFinish H hs c sigVerify audVerify v).
Proof.
  intros L Hn Hm. unfold checkFinish. pose proof hs_pos. apply calm_bind'; [apply dpFinish_calm; auto|]. intro r.
  apply calm_bind'; [apply logRoot_calm; auto|]. intro root. apply calm_bind'; [destruct (v_nP v); [apply logRoot_calm; auto|exact I]|]. intro rootP.
  apply calm_bind'; [apply verifyTreeHead_calm; auto|]. intro; exact I.
Qed.

(** What follows from the state being present: the new state has the size that was verified. *)
Lemma finish_nice v st : low (v_d v) -> 1 <= v_n v < 2 ^ 64 -> (forall k, v_m v = Some k -> k <= v_n v) -> v_state v = Some st ->
  nice (fun s => cs_head s = match fth_head (v_fth v) with Some th => th | None => cs_head st end) (finish H hs c sigVerify audVerify v).
Proof.
  intros L Hn Hm Es. unfold finish. apply calm_then; [apply checkFinish_calm; auto|]. intro r. rewrite Es. cbn. reflexivity.
Qed.

End Client.

(** ** Label states *)

Lemma contactPtrs_in es : forall e, In e (contactPtrs es) -> In e es.
Proof.
  unfold contactPtrs. intros e Hi. assert (G : forall es m, In e (fold_left (fun m e => mput m (fst e) (snd e)) es m) -> In e es \/ In e m).
  { clear. induction es as [|a t IH]; intros m Hi; [right; exact Hi|]. cbn in Hi. apply IH in Hi as [Hi|[<-|Hi]]; [left; right; exact Hi| |right; exact Hi].
    left. left. destruct a; reflexivity. }
  destruct (G es [] Hi) as [?|[]]; auto.
Qed.
Lemma contactPtrs_fine n es : Forall (finePtr n) es -> Forall (finePtr n) (contactPtrs es).
Proof. intro F. apply Forall_forall. intros e He. apply contactPtrs_in in He. rewrite Forall_forall in F. auto. Qed.

Lemma contactStruct_fine n m : Forall (finePtr n) m -> nice (Forall (finePtr n)) (contactStruct (Some m)).
Proof.
  intro F. cbn. apply Forall_forall. intros e He. apply in_flat_map in He as (x & _ & He). destruct (mget m x) as [v|] eqn:E; [|destruct He].
  destruct He as [<-|[]]. apply mget_in in E. rewrite Forall_forall in F. auto.
Qed.

Lemma mdel_fine n m x : Forall (finePtr n) m -> Forall (finePtr n) (mdel m x).
Proof. intro F. apply Forall_forall. intros e He. apply filter_In in He as [He _]. rewrite Forall_forall in F. auto. Qed.
Lemma filter_le {A} (f : A -> bool) l : (List.length (filter f l) <= List.length l)%nat.
Proof. induction l as [|a t IH]; cbn; [lia|]. destruct (f a); cbn; lia. Qed.
Lemma mdel_len (m : list (N * N)) x v : mget m x = Some v -> (List.length (mdel m x) < List.length m)%nat.
Proof.
  intro E. apply mget_in in E. unfold mdel. induction m as [|e t IH]; [destruct E|]. cbn [filter List.length].
  destruct E as [->|E].
  - cbn [fst]. rewrite N.eqb_refl. cbn [negb]. pose proof (filter_le (fun e => negb (fst e =? x)) t). lia.
  - destruct (negb _); cbn [List.length]; specialize (IH E); lia.
Qed.

Lemma simplifyRound_nice n (Hn : ok64 n) xs : forall ptrs modified, Forall (finePtr n) ptrs ->
  nice (fun r => Forall (finePtr n) (fst r) /\ (List.length (fst r) <= List.length ptrs)%nat /\
                 (snd r = true -> modified = true \/ (List.length (fst r) < List.length ptrs)%nat)) (simplifyRound n xs ptrs modified).
Proof.
  induction xs as [|x t IH]; intros ptrs modified F; [cbn; auto|]. cbn [simplifyRound].
  destruct (mget ptrs x) as [ver|] eqn:E; [|apply IH; auto].
  assert (Hx : x < n) by (apply mget_in in E; rewrite Forall_forall in F; apply (F _ E)).
  destruct (c11_right n x Hn Hx) as (path & -> & _). cbn [bind]. destruct path as [|p path]; [apply IH; auto|].
  destruct (mget ptrs p) as [par|]; [|apply IH; auto]. destruct (_ <? _); [apply IH; auto|].
  pose proof (mdel_len ptrs x ver E) as Ln. eapply nice_mono; [|apply IH; apply mdel_fine; auto]. intros [ptrs' md] (A & B & _). cbn [fst snd] in *.
  split; [exact A|]. split; [lia|]. intros _. right. lia.
Qed.
Section Visit.
Variable visit : nat -> list (N * N) -> list N.
Lemma simplifyLoop_nice n (Hn : ok64 n) fuel : forall i ptrs, Forall (finePtr n) ptrs -> (List.length ptrs < fuel)%nat ->
  nice (Forall (finePtr n)) (simplifyLoop fuel visit i n ptrs).
Proof.
  induction fuel as [|f IH]; intros i ptrs F L; [lia|]. cbn [simplifyLoop].
  eapply nice_then; [apply simplifyRound_nice; auto|]. intros [ptrs' md] (A & B & D). cbn [fst snd] in *. destruct md; [|exact A].
  destruct (D eq_refl); [discriminate|]. apply IH; auto. lia.
Qed.

Lemma setPath_fine n ver (Hv : okVersion ver) path : Forall (fun x => x < n) path -> forall ptrs x, Forall (finePtr n) ptrs ->
  Forall (finePtr n) (fst (setPath path ver ptrs x)).
Proof.
  intro Fp. induction Fp as [|y t Hy Fp IH]; intros ptrs x F; [exact F|]. cbn [setPath]. destruct (match mget ptrs y with Some v => ver <? v | None => false end); [exact F|].
  apply IH. constructor; [split; auto|exact F].
Qed.

Lemma updateContactState_nice es x n ver : ok64 n -> x < n -> okVersion ver -> Forall (finePtr n) es ->
  nice (fun r => Forall (finePtr n) (fst r)) (updateContactState visit es x n ver).
Proof.
  intros Hn Hx Hv F. unfold updateContactState. destruct (c11_right n x Hn Hx) as (path & -> & Hp & _). cbn [bind].
  assert (Fp : Forall (fun x => x < n) (x :: path)).
  { constructor; [exact Hx|]. apply Forall_forall. intros y Hy. apply Hp in Hy as [Hs _]. apply (sanc_anc _ x _) in Hs; [apply Hs|unfold ok64, two64 in *; lia|exact Hx]. }
  pose proof (setPath_fine n ver Hv _ Fp (contactPtrs es) x (contactPtrs_fine n es F)) as Fs.
  destruct (setPath _ _ _ _) as [ptrs x']. cbn [fst] in Fs. unfold simplifyMonitoringMap.
  eapply nice_then; [apply simplifyLoop_nice; auto|]. intros ptrs' F'.
  eapply nice_then; [apply contactStruct_fine; exact F'|]. intros es' Fe. exact Fe.
Qed.

End Visit.

Lemma allLadder_calm vs : Forall okVersion vs -> calm (allLadderVersions vs).
Proof.
  intro F. unfold allLadderVersions. apply calm_bind'; [apply mapM_calm; intros v Hv; rewrite Forall_forall in F; apply search_calm; auto|]. intro; exact I.
Qed.
Lemma owned_small o : fineOwner o -> Forall okVersion (ownedVersions o).
Proof.
  intros [A B]. unfold greatestVersion in B. unfold ownedVersions. apply Forall_app. split.
  - destruct (Z.leb_spec 0 (os_verAt o)); constructor; [|constructor]. apply toU32_small. lia.
  - apply Forall_forall. intros v Hv. apply in_map_iff in Hv as (i & <- & Hi). apply in_seq in Hi. apply toU32_small. lia.
Qed.

Lemma retained_nice n contact owner versions : Forall (finePtr n) contact -> optok fineOwner owner ->
  nice (fun ls => cl_contact ls = contact /\ cl_owner ls = owner) (updateRetainedVersions contact owner versions).
Proof.
  intros F O. unfold updateRetainedVersions. apply calm_then.
  { apply mapM_calm. intros e He. rewrite Forall_forall in F. apply monitoring_calm. apply (F e He). }
  intro mons. apply calm_then; [destruct owner as [o|]; [apply allLadder_calm, owned_small; exact O|exact I]|]. intro own. cbn zeta.
  apply calm_then; [|intro; cbn; auto]. apply mapM_calm. intros v _. destruct (mget versions v) as [[out com]|]; exact I.
Qed.

Lemma putState_calm k s : calm (putState k s).
Proof. unfold putState. apply calm_bind'; [apply clientState_calm|]. intro; exact I. Qed.
Lemma putLabelState_calm k s label ls t : calm (putLabelState k s label ls t).
Proof.
  unfold putLabelState. apply calm_bind'; [apply clientState_calm|]. intro.
  destruct (cl_contact ls); destruct (cl_owner ls); try exact I; (apply calm_bind'; [apply labelState_calm|intro; exact I]).
Qed.
Lemma getLabelState_calm hs k label : calm (getLabelState hs k label).
Proof. unfold getLabelState. destruct (bget _ _) as [[raw t]|]; [apply parseLabel_calm|exact I]. Qed.
