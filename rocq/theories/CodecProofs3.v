(** Lemmas: unambiguous payloads; client states. *)
From Coq Require Import Permutation.
From Verif Require Import Base BaseProofs PrefixModel PrefixCodecProofs CodecModel CodecSpec CodecProofs CodecProofs2.
Opaque writeNum be writeOptional writeOptionalNum two64 two32 writeBytes writeSlice readBytes readSlice readNum readOptional readOptionalNum.

Lemma Ok_inj {A} (a b : A) : Ok a = Ok b -> a = b.
Proof. intro E. injection E as E. exact E. Qed.

(** Encodings followed by anything can be taken apart. *)
Lemma pf {A} (ok : A -> Prop) w g : codec ok w g -> forall a b ra rb x y, ok a -> ok b -> w a = Ok ra -> w b = Ok rb ->
  ra ++ x = rb ++ y -> a = b /\ x = y.
Proof.
  intros C a b ra rb x y Oa Ob Wa Wb E. pose proof (codec_rt C a ra x Oa Wa) as R1. pose proof (codec_rt C b rb y Ob Wb) as R2.
  rewrite E, R2 in R1. injection R1 as -> ->. auto.
Qed.
Lemma pf_num k a b x y : a < 256 ^ N.of_nat k -> b < 256 ^ N.of_nat k -> writeNum k a ++ x = writeNum k b ++ y -> a = b /\ x = y.
Proof. intros A B. apply (pf _ _ _ (codec_num k)); auto. Qed.
Lemma pf_bytes k a b ra rb x y : (0 < k)%nat -> writeBytes k a = Ok ra -> writeBytes k b = Ok rb -> ra ++ x = rb ++ y -> a = b /\ x = y.
Proof. intros K. apply (pf _ _ _ (codec_bytes k K)); exact I. Qed.
Lemma pf_u64 a b x y : u64ok a -> u64ok b -> writeNum 8 a ++ x = writeNum 8 b ++ y -> a = b /\ x = y.
Proof. intros A B. apply pf_num; assumption. Qed.
Lemma pf_u32 a b x y : u32ok a -> u32ok b -> writeNum 4 a ++ x = writeNum 4 b ++ y -> a = b /\ x = y.
Proof. intros A B. apply pf_num; assumption. Qed.

Lemma pf_opt (p q : bool) x y : writeOptional p ++ x = writeOptional q ++ y -> p = q /\ x = y.
Proof. apply (pf _ _ _ codec_optional); auto. Qed.

Lemma pf_config c d rc rd x y : okConfig c -> okConfig d -> pubConfigMarshal c = Ok rc -> pubConfigMarshal d = Ok rd ->
  rc ++ x = rd ++ y -> sameConfig c d /\ x = y.
Proof.
  intros Oc Od Ec Ed E. unfold pubConfigMarshal in Ec, Ed.
  destruct (writeBytes 2 (pc_sigKey c)) as [s1| | |] eqn:S1; try discriminate Ec. destruct (writeBytes 2 (pc_sigKey d)) as [s2| | |] eqn:S2; try discriminate Ed.
  destruct (writeBytes 2 (pc_vrfKey c)) as [v1| | |] eqn:V1; try discriminate Ec. destruct (writeBytes 2 (pc_vrfKey d)) as [v2| | |] eqn:V2; try discriminate Ed.
  cbn [bind] in Ec, Ed.
  destruct (if pc_mode c =? ThirdPartyManagement then _ else _) as [m1| | |] eqn:M1 in Ec; try discriminate Ec.
  destruct (if pc_mode d =? ThirdPartyManagement then _ else _) as [m2| | |] eqn:M2 in Ed; try discriminate Ed.
  cbn [bind] in Ec, Ed. injection Ec as <-. injection Ed as <-. rewrite <- !app_assoc in E.
  destruct Oc as (A1 & A2 & A3 & A4 & A5 & A6 & A7 & A8), Od as (B1 & B2 & B3 & B4 & B5 & B6 & B7 & B8).
  apply pf_num in E; [|exact A1|exact B1]. destruct E as [E1 E].
  apply pf_num in E; [|exact A2|exact B2]. destruct E as [E2 E].
  apply (pf_bytes 2 _ _ _ _ _ _ ltac:(lia) S1 S2) in E. destruct E as [E3 E].
  apply (pf_bytes 2 _ _ _ _ _ _ ltac:(lia) V1 V2) in E. destruct E as [E4 E].
  rewrite <- E2 in M2.
  assert (Q : (pc_mode c = ThirdPartyManagement -> pc_leafKey c = pc_leafKey d) /\
    (pc_mode c = ThirdPartyAuditing -> pc_maxAuditorLag c = pc_maxAuditorLag d /\ pc_auditorStart c = pc_auditorStart d /\ pc_auditorKey c = pc_auditorKey d) /\
    exists u v, u = v /\ writeNum 8 (pc_maxAhead c) ++ u = writeNum 8 (pc_maxAhead d) ++ v /\
      u = writeNum 8 (pc_maxBehind c) ++ writeNum 8 (pc_rmw c) ++ (if 0 <? pc_maxLife c then writeOptional true ++ writeNum 8 (pc_maxLife c) else writeOptional false) ++ x /\
      v = writeNum 8 (pc_maxBehind d) ++ writeNum 8 (pc_rmw d) ++ (if 0 <? pc_maxLife d then writeOptional true ++ writeNum 8 (pc_maxLife d) else writeOptional false) ++ y).
  { assert (F : forall u v, writeNum 8 (pc_maxAhead c) ++ u = writeNum 8 (pc_maxAhead d) ++ v -> u = v) by (intros u v W; apply pf_u64 in W; tauto).
    destruct (N.eqb_spec (pc_mode c) ThirdPartyManagement) as [M|M]; [|destruct (N.eqb_spec (pc_mode c) ThirdPartyAuditing) as [M'|M']].
    - apply (pf_bytes 2 _ _ _ _ _ _ ltac:(lia) M1 M2) in E. destruct E as [E5 E]. split; [auto|]. split; [rewrite M; discriminate|].
      do 2 eexists. split; [exact (F _ _ E)|]. split; [exact E|split; reflexivity].
    - destruct (writeBytes 2 (pc_auditorKey c)) as [k1| | |] eqn:K1; try discriminate M1.
      destruct (writeBytes 2 (pc_auditorKey d)) as [k2| | |] eqn:K2; try discriminate M2.
      cbn [bind] in M1, M2. injection M1 as <-. injection M2 as <-. rewrite <- !app_assoc in E.
      apply pf_u64 in E; auto. destruct E as [E5 E]. apply pf_u64 in E; auto. destruct E as [E6 E].
      apply (pf_bytes 2 _ _ _ _ _ _ ltac:(lia) K1 K2) in E. destruct E as [E7 E]. split; [congruence|]. split; [auto|].
      do 2 eexists. split; [exact (F _ _ E)|]. split; [exact E|split; reflexivity].
    - injection M1 as <-. injection M2 as <-. split; [congruence|]. split; [congruence|]. cbn [app] in E.
      do 2 eexists. split; [exact (F _ _ E)|]. split; [exact E|split; reflexivity]. }
  destruct Q as [Q1 [Q2 (u & v & UV & E5 & U & V)]]. apply pf_u64 in E5; auto. destruct E5 as [E5 _].
  rewrite U, V in UV. clear u v U V E. apply pf_u64 in UV; auto. destruct UV as [E6 E]. apply pf_u64 in E; auto. destruct E as [E7 E].
  assert (R : pc_maxLife c = pc_maxLife d /\ x = y).
  { destruct (N.ltb_spec 0 (pc_maxLife c)), (N.ltb_spec 0 (pc_maxLife d)); rewrite <- ?app_assoc in E; apply pf_opt in E; destruct E as [E8 E]; try discriminate E8.
    - apply pf_u64 in E; auto.
    - split; [lia|exact E]. }
  destruct R as [R1 R2]. split; [|exact R2]. unfold sameConfig. repeat (split; [assumption|]). assumption.
Qed.

Lemma vrfInput_inj l v l' v' r : u32ok v -> u32ok v' -> vrfInput l v = Ok r -> vrfInput l' v' = Ok r -> l = l' /\ v = v'.
Proof.
  intros O O' E E'. unfold vrfInput in *.
  destruct (writeBytes 1 l) as [a| | |] eqn:A; try discriminate E. destruct (writeBytes 1 l') as [b| | |] eqn:B; try discriminate E'.
  cbn [bind] in *. injection E as <-. apply Ok_inj in E'.
  apply (pf_bytes 1 _ _ _ _ _ _ ltac:(lia) B A) in E'. destruct E' as [-> E']. split; [reflexivity|].
  rewrite <- (app_nil_r (writeNum 4 v)), <- (app_nil_r (writeNum 4 v')) in E'. apply pf_u32 in E'; auto. destruct E'; auto.
Qed.

Lemma writeBytes_nonempty k x : (0 < k)%nat -> writeBytes k x <> Ok [].
Proof.
  intros K E. pose proof (codec_rt (codec_bytes k K) x [] [] I E) as R.
  Transparent readBytes readNum. unfold readBytes, readNum, readFull in R. destruct k; [lia|]. cbn in R. discriminate R.
Qed.
Opaque readBytes readNum.

Lemma updateValue_inj u u' r : updateValueMarshal u = Ok r -> updateValueMarshal u' = Ok r -> u = u'.
Proof.
  destruct u as [v s], u' as [v' s']. unfold updateValueMarshal. cbn [uv_value uv_sig]. intros E E'.
  destruct (writeBytes 4 v) as [a| | |] eqn:A; try discriminate E. destruct (writeBytes 4 v') as [b| | |] eqn:B; try discriminate E'.
  cbn [bind] in *. destruct (updateSuffixMarshal s) as [t| | |] eqn:S; try discriminate E. destruct (updateSuffixMarshal s') as [t'| | |] eqn:S'; try discriminate E'.
  cbn [bind] in *. injection E as <-. apply Ok_inj in E'. apply (pf_bytes 4 _ _ _ _ _ _ ltac:(lia) B A) in E'. destruct E' as [-> ->].
  f_equal. destruct s as [s|], s' as [s'|]; cbn in S, S'; auto.
  - destruct (pf_bytes 2 s s' t t [] [] ltac:(lia) S S' eq_refl) as [-> _]. reflexivity.
  - injection S' as <-. destruct (writeBytes_nonempty 2 s ltac:(lia) S).
  - injection S as <-. destruct (writeBytes_nonempty 2 s' ltac:(lia) S').
Qed.

Lemma commitmentValue_inj l v u l' v' u' r : u32ok v -> u32ok v' ->
  commitmentValue l v u = Ok r -> commitmentValue l' v' u' = Ok r -> l = l' /\ v = v' /\ u = u'.
Proof.
  intros O O' E E'. unfold commitmentValue in *.
  destruct (writeBytes 1 l) as [a| | |] eqn:A; try discriminate E. destruct (writeBytes 1 l') as [b| | |] eqn:B; try discriminate E'.
  cbn [bind] in *. destruct (updateValueMarshal u) as [t| | |] eqn:S; try discriminate E. destruct (updateValueMarshal u') as [t'| | |] eqn:S'; try discriminate E'.
  cbn [bind] in *. injection E as <-. apply Ok_inj in E'.
  apply (pf_bytes 1 _ _ _ _ _ _ ltac:(lia) B A) in E'. destruct E' as [-> E']. apply pf_u32 in E'; auto. destruct E' as [-> ->].
  split; [reflexivity|]. split; [reflexivity|]. eapply updateValue_inj; eauto.
Qed.

Lemma logEntry_inj e e' r : u64ok (le_ts e) -> u64ok (le_ts e') -> logEntryMarshal e = Ok r -> logEntryMarshal e' = Ok r -> e = e'.
Proof.
  Transparent logEntryMarshal.
  destruct e as [t p], e' as [t' p']. unfold logEntryMarshal. cbn [le_ts le_root]. intros O O' E E'. injection E as <-. apply Ok_inj in E'. apply pf_u64 in E'; auto. destruct E' as [-> ->]. reflexivity.
Qed.

Lemma treeHeadTBS_inj c d n m x y r : okConfig c -> okConfig d -> u64ok n -> u64ok m ->
  treeHeadTBS c n x = Ok r -> treeHeadTBS d m y = Ok r -> sameConfig c d /\ n = m /\ x = y.
Proof.
  intros Oc Od On Om E E'. unfold treeHeadTBS in *.
  destruct (pubConfigMarshal c) as [a| | |] eqn:A; try discriminate E. destruct (pubConfigMarshal d) as [b| | |] eqn:B; try discriminate E'.
  cbn [bind] in *. injection E as <-. apply Ok_inj in E'. symmetry in E'. apply (pf_config c d _ _ _ _ Oc Od A B) in E'. destruct E' as [S E'].
  apply pf_u64 in E'; auto. 
Qed.

Lemma auditorTreeHeadTBS_inj c d t u n m x y r : okConfig c -> okConfig d -> u64ok t -> u64ok u -> u64ok n -> u64ok m ->
  auditorTreeHeadTBS c t n x = Ok r -> auditorTreeHeadTBS d u m y = Ok r -> sameConfig c d /\ t = u /\ n = m /\ x = y.
Proof.
  intros Oc Od Ot Ou On Om E E'. unfold auditorTreeHeadTBS in *.
  destruct (pubConfigMarshal c) as [a| | |] eqn:A; try discriminate E. destruct (pubConfigMarshal d) as [b| | |] eqn:B; try discriminate E'.
  cbn [bind] in *. injection E as <-. apply Ok_inj in E'. symmetry in E'. apply (pf_config c d _ _ _ _ Oc Od A B) in E'. destruct E' as [S E'].
  apply pf_u64 in E'; auto. destruct E' as [-> E']. apply pf_u64 in E'; auto.
Qed.

Lemma treeHead_auditor_distinct c d n t m x y r : okConfig c -> okConfig d -> List.length x = List.length y ->
  treeHeadTBS c n x = Ok r -> auditorTreeHeadTBS d t m y = Ok r -> False.
Proof.
  intros Oc Od L E E'. unfold treeHeadTBS, auditorTreeHeadTBS in *.
  destruct (pubConfigMarshal c) as [a| | |] eqn:A; try discriminate E. destruct (pubConfigMarshal d) as [b| | |] eqn:B; try discriminate E'.
  cbn [bind] in *. injection E as <-. apply Ok_inj in E'. symmetry in E'. apply (pf_config c d _ _ _ _ Oc Od A B) in E'. destruct E' as [S E'].
  apply (f_equal (@List.length byte)) in E'. Transparent writeNum. unfold writeNum in E'. rewrite !app_length, !be_length in E'. lia.
Qed.
Opaque writeNum.

Lemma updateTBS_inj c d l l' v v' x y r : okConfig c -> okConfig d -> u32ok v -> u32ok v' ->
  updateTBS c l v x = Ok r -> updateTBS d l' v' y = Ok r -> sameConfig c d /\ l = l' /\ v = v' /\ x = y.
Proof.
  intros Oc Od Ov Ov' E E'. unfold updateTBS in *.
  destruct (pubConfigMarshal c) as [a| | |] eqn:A; try discriminate E. destruct (pubConfigMarshal d) as [b| | |] eqn:B; try discriminate E'.
  cbn [bind] in *. destruct (writeBytes 1 l) as [a1| | |] eqn:A1; try discriminate E. destruct (writeBytes 1 l') as [b1| | |] eqn:B1; try discriminate E'.
  cbn [bind] in *. destruct (writeBytes 4 x) as [a2| | |] eqn:A2; try discriminate E. destruct (writeBytes 4 y) as [b2| | |] eqn:B2; try discriminate E'.
  cbn [bind] in *. injection E as <-. apply Ok_inj in E'. symmetry in E'. apply (pf_config c d _ _ _ _ Oc Od A B) in E'. destruct E' as [S E'].
  apply (pf_bytes 1 _ _ _ _ _ _ ltac:(lia) A1 B1) in E'. destruct E' as [-> E']. apply pf_u32 in E'; auto. destruct E' as [-> ->].
  split; [exact S|]. split; [reflexivity|]. split; [reflexivity|]. apply (pf_bytes 4 x y b2 b2 [] [] ltac:(lia) A2 B2 eq_refl).
Qed.

(** ** Client states *)

Lemma buildEntries_ok l : forall acc, NoDup (map fst (l ++ acc)) -> exists m, buildEntries l acc = Ok m /\ Permutation m (l ++ acc).
Proof.
  induction l as [|[p e] t IH]; intros acc N; cbn; [eauto|].
  cbn in N. inversion N; subst. destruct (mhas acc p) eqn:M.
  { exfalso. unfold mhas in M. destruct (mget acc p) eqn:G; [|discriminate]. apply H1. rewrite map_app, in_app_iff. right.
    apply mget_In in G. apply (in_map fst) in G. exact G. }
  destruct (IH (mput acc p e)) as [m [E P]].
  - unfold mput. eapply Permutation_NoDup; [|exact N]. rewrite !map_app. cbn. apply Permutation_middle.
  - exists m. split; [exact E|]. rewrite P. unfold mput. symmetry. apply Permutation_middle.
Qed.

Lemma mget_perm {A} (m m' : list (N * A)) k : Permutation m m' -> NoDup (map fst m) -> mget m k = mget m' k.
Proof.
  intros P N. assert (N' : NoDup (map fst m')) by (eapply Permutation_NoDup; [apply Permutation_map; exact P|exact N]).
  destruct (mget m k) eqn:G.
  - symmetry. apply In_mget; [exact N'|]. eapply Permutation_in; [exact P|]. apply mget_In. exact G.
  - symmetry. apply mget_None. apply mget_None in G. intro I. apply G. eapply Permutation_in; [|exact I]. symmetry. apply Permutation_map. exact P.
Qed.

Lemma clientState_rt c x order raw : okClientState c x -> Permutation order (cs_entries x) ->
  (cs_auditor x = None <-> pc_mode c <> ThirdPartyAuditing) ->
  clientStateMarshal x order = Ok raw -> exists y, parseState c raw = Ok y /\ sameState x y.
Proof.
  destruct x as [h a f es]. unfold okClientState. cbn. intros (O1 & O2 & O3 & O4 & N) P M E. unfold clientStateMarshal in E. cbn in E. ib.
  assert (O4' : Forall (okIndexedLogEntry (pc_hs c)) order) by (rewrite Forall_forall in *; intros z I; apply O4; eapply Permutation_in; eauto).
  assert (N' : NoDup (map fst (order ++ []))) by (rewrite app_nil_r; eapply Permutation_NoDup; [symmetry; apply Permutation_map; exact P|exact N]).
  destruct (buildEntries_ok order [] N') as [m [B Q]]. rewrite app_nil_r in Q, N'.
  exists {| cs_head := h; cs_auditor := a; cs_subtrees := f; cs_entries := m |}. split.
  - unfold parseState, newClientState.
    assert (G : forall s, s = a0 ++ a1 ++ a2 ++ a3 -> s = a0 ++ a1 ++ a2 ++ a3 ++ []) by (intros; rewrite app_nil_r; assumption).
    rewrite (G _ eq_refl). rewrite (codec_rt codec_treeHead h a0 _ O1 E0). cbn [bind].
    destruct (N.eqb_spec (pc_mode c) ThirdPartyAuditing) as [Md|Md].
    + destruct a as [ath|]; [|exfalso; apply M; [reflexivity|exact Md]]. cbn in O2, E1. rewrite (codec_rt codec_auditorTreeHead ath a1 _ O2 E1). cbn [bind].
      rewrite (codec_rt (codec_slice 1 _ _ _ (codec_full (pc_hs c))) f a2 _ O3 E2). cbn [bind].
      rewrite (codec_rt (codec_slice 1 _ _ _ (codec_indexedLogEntry (pc_hs c))) order a3 _ O4' E3). cbn [bind]. rewrite B. reflexivity.
    + assert (a = None) as -> by (apply M; exact Md). injection E1 as <-. cbn [app bind].
      rewrite (codec_rt (codec_slice 1 _ _ _ (codec_full (pc_hs c))) f a2 _ O3 E2). cbn [bind].
      rewrite (codec_rt (codec_slice 1 _ _ _ (codec_indexedLogEntry (pc_hs c))) order a3 _ O4' E3). cbn [bind]. rewrite B. reflexivity.
  - unfold sameState. cbn. repeat (split; [reflexivity|]). intro p. symmetry. etransitivity; [apply mget_perm; [exact Q|]|apply mget_perm; [exact P|exact N']].
    eapply Permutation_NoDup; [symmetry; apply Permutation_map; exact Q|exact N'].
Qed.

Lemma labelState_rt hs x raw : okLabelState hs x -> cl_owner x = None -> labelStateMarshal x = Ok raw -> parseLabelState hs raw = Ok x.
Proof.
  destruct x as [m o v]. cbn. intros (O1 & O2 & O3) -> E. unfold labelStateMarshal in E. cbn in *. ib.
  unfold parseLabelState, newLabelState. rewrite <- (app_nil_r (a ++ writeOptional false ++ a0)), <- !app_assoc.
  rewrite (codec_rt (codec_slice 4 _ _ _ codec_mapEntry) m a _ O1 E0). cbn [bind].
  rewrite (codec_rt codec_optional false _ _ I eq_refl). cbn [bind].
  rewrite (codec_rt (codec_slice 4 _ _ _ (codec_retainedVersion hs)) v a0 _ O3 E1). reflexivity.
Qed.

Lemma labelState_owner_lost hs x o raw : okLabelState hs x -> cl_owner x = Some o -> labelStateMarshal x = Ok raw ->
  exists msg, parseLabelState hs raw = Fail msg.
Proof.
  destruct x as [m o' v]. cbn. intros (O1 & O2 & O3) -> E. cbn in O2. destruct O2 as [O2 O4]. unfold labelStateMarshal in E. cbn in *. ib.
  unfold ownerStateMarshal in E1. ib.
  unfold parseLabelState, newLabelState. rewrite <- (app_nil_r (a ++ writeOptional true ++ _)), <- !app_assoc.
  rewrite (codec_rt (codec_slice 4 _ _ _ codec_mapEntry) m a _ O1 E0). cbn [bind].
  rewrite (codec_rt codec_optional true _ _ I eq_refl). cbn [bind]. unfold newOwnerState.
  rewrite (codec_rt codec_u64 (os_starting o) _ _ O2 eq_refl). cbn [bind]. unfold readInt. cbn [bind]. eauto.
Qed.
