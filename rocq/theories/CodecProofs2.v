(** Lemmas: encodings of the protocol messages. *)
From Verif Require Import Base BaseProofs PrefixModel PrefixCodecProofs CodecModel CodecSpec CodecProofs.
Opaque writeNum be writeOptional writeOptionalNum two64 two32 writeBytes writeSlice readBytes readSlice readNum readOptional readOptionalNum.

Ltac da O := repeat match type of O with _ /\ _ => let O1 := fresh "O" in destruct O as [O1 O] end.
Ltac auto_struct w g ok := split; [|split];
  [ intros x raw rest O E; destruct x; unfold ok in O; da O; unfold w in E; cbn in E; ib; unfold g; cbn in *; fwd
  | intros raw x rest E; unfold g in E; ib; bwd; split; [unfold ok; repeat match goal with |- _ /\ _ => split end; cbn; try assumption|unfold w; cbn; fin]
  | intro raw; unfold g; sb ].

Lemma codec_treeHead : codec okTreeHead treeHeadMarshal newTreeHead.
Proof. auto_struct treeHeadMarshal newTreeHead okTreeHead. Qed.
#[export] Hint Extern 0 (codec _ _ newTreeHead) => exact codec_treeHead : codecs.

Lemma codec_auditorTreeHead : codec okAuditorTreeHead auditorTreeHeadMarshal newAuditorTreeHead.
Proof. auto_struct auditorTreeHeadMarshal newAuditorTreeHead okAuditorTreeHead. Qed.
#[export] Hint Extern 0 (codec _ _ newAuditorTreeHead) => exact codec_auditorTreeHead : codecs.

Lemma codec_fullTreeHead c : codec (okFullTreeHead c) fullTreeHeadMarshal (newFullTreeHead c).
Proof.
  split; [|split].
  - intros [[th|] [ath|]] raw rest O E; cbn in O; try contradiction; unfold fullTreeHeadMarshal in E; cbn in E; ib; unfold newFullTreeHead; cbn.
    + destruct O as [M [O1 O2]]. fwd. rewrite M. cbn. fwd.
    + destruct O as [M O1]. fwd. destruct (N.eqb_spec (pc_mode c) ThirdPartyAuditing); [contradiction|reflexivity].
    + reflexivity.
  - intros raw x rest E. unfold newFullTreeHead in E. destruct raw as [|b r]; [discriminate|]. cbn [readByte bind] in E.
    destruct (N.eqb_spec (b2n b) 1) as [E1|_]; [|destruct (N.eqb_spec (b2n b) 2) as [E1|_]; [|discriminate]]; cbn [negb andb] in E.
    + rewrite E1 in E. injection E as <- <-. split; [exact I|]. eexists. split; [reflexivity|]. cbn. f_equal. apply b2n_inj. rewrite E1. reflexivity.
    + assert (b = x02) as -> by (apply b2n_inj; rewrite E1; reflexivity).
      destruct (newTreeHead r) as [[th r1]| | |] eqn:T; try discriminate. cbn [bind] in E.
      destruct (N.eqb_spec (pc_mode c) ThirdPartyAuditing) as [M|M]; ib; bwd; cbn; split; auto; unfold fullTreeHeadMarshal; cbn; fin; cbn; rewrite <- ?app_assoc; reflexivity.
  - intro raw. unfold newFullTreeHead. sb.
Qed.
#[export] Hint Extern 0 (codec _ _ (newFullTreeHead _)) => apply codec_fullTreeHead : codecs.

Lemma codec_inclusionProof hs : codec (Forall (size hs)) inclusionProofMarshal (newInclusionProof hs).
Proof. unfold inclusionProofMarshal, newInclusionProof. fc. Qed.
#[export] Hint Extern 0 (codec _ _ (newInclusionProof _)) => apply codec_inclusionProof : codecs.

Lemma codec_combinedProof hs : codec (okCombinedProof hs) combinedProofMarshal (newCombinedProof hs).
Proof. auto_struct combinedProofMarshal newCombinedProof okCombinedProof. Qed.
#[export] Hint Extern 0 (codec _ _ (newCombinedProof _)) => apply codec_combinedProof : codecs.

Lemma codec_suffix c : codec (okSuffix c) updateSuffixMarshal (newUpdateSuffix c).
Proof.
  unfold newUpdateSuffix. split; [|split].
  - intros [s|] raw rest O E; unfold okSuffix in O; cbn in E; destruct (N.eqb_spec (pc_mode c) ThirdPartyManagement) as [M|M]; cbn [negb].
    + fwd.
    + exfalso. apply M, O. eauto.
    + apply O in M. destruct M as [x Q]. discriminate Q.
    + injection E as <-. reflexivity.
  - intros raw x rest E. destruct (N.eqb_spec (pc_mode c) ThirdPartyManagement) as [M|M]; cbn [negb] in E; ib; bwd; (split; [|cbn; fin]); unfold okSuffix.
    + split; eauto.
    + split; [intros [x Q]; discriminate Q|intro Q; contradiction].
  - intro raw. sb.
Qed.
#[export] Hint Extern 0 (codec _ _ (newUpdateSuffix _)) => apply codec_suffix : codecs.

Lemma codec_updateValue c : codec (okUpdateValue c) updateValueMarshal (newUpdateValue c).
Proof. auto_struct updateValueMarshal newUpdateValue okUpdateValue. Qed.
#[export] Hint Extern 0 (codec _ _ (newUpdateValue _)) => apply codec_updateValue : codecs.

Lemma codec_logEntry hs : codec (okLogEntry hs) logEntryMarshal (newLogEntry hs).
Proof. auto_struct logEntryMarshal newLogEntry okLogEntry. Qed.
#[export] Hint Extern 0 (codec _ _ (newLogEntry _)) => apply codec_logEntry : codecs.

Lemma codec_ladderStep vs hs : codec (okLadderStep vs hs) ladderStepMarshal (newLadderStep vs hs).
Proof.
  unfold newLadderStep. split; [|split].
  - intros [p [k|]] raw rest [O1 O2] E; unfold ladderStepMarshal in E; cbn in *; ib; fwd.
  - intros raw x rest E. ib. match goal with b : bool |- _ => destruct b end; ib; bwd; (split; [split; cbn; auto|unfold ladderStepMarshal; cbn; fin]).
  - intro raw. sb.
Qed.
#[export] Hint Extern 0 (codec _ _ (newLadderStep _ _)) => apply codec_ladderStep : codecs.

Lemma codec_openingAndValue c : codec (okOpeningAndValue c) openingAndValueMarshal (newOpeningAndValue c).
Proof. auto_struct openingAndValueMarshal newOpeningAndValue okOpeningAndValue. Qed.
#[export] Hint Extern 0 (codec _ _ (newOpeningAndValue _)) => apply codec_openingAndValue : codecs.

Lemma codec_labelValue : codec (fun _ => True) labelValueMarshal newLabelValue.
Proof. apply codec_bytes. lia. Qed.
#[export] Hint Extern 0 (codec _ _ newLabelValue) => exact codec_labelValue : codecs.

Lemma codec_updateInfo c : codec (okUpdateInfo c) updateInfoMarshal (newUpdateInfo c).
Proof. auto_struct updateInfoMarshal newUpdateInfo okUpdateInfo. Qed.
#[export] Hint Extern 0 (codec _ _ (newUpdateInfo _)) => apply codec_updateInfo : codecs.

Lemma codec_searchRequest : codec okSearchRequest searchRequestMarshal newSearchRequest.
Proof. auto_struct searchRequestMarshal newSearchRequest okSearchRequest. Qed.

Lemma codec_searchResponse c v : codec (okSearchResponse c v) searchResponseMarshal (newSearchResponse c v).
Proof.
  unfold newSearchResponse. split; [|split].
  - intros [h w o u l s] raw rest (O1 & O2 & O3 & O4 & O5 & O6) E. unfold searchResponseMarshal in E. cbn in *. ib.
    destruct v, w; try contradiction; cbn [app]; fwd; cbn [app]; fwd.
  - intros raw x rest E. destruct v; ib; bwd; (split; [unfold okSearchResponse; repeat match goal with |- _ /\ _ => split end; cbn; auto|unfold searchResponseMarshal; cbn; fin]).
  - intro raw. sb.
Qed.

Lemma codec_mapEntry : codec okMapEntry mapEntryMarshal newMapEntry.
Proof. auto_struct mapEntryMarshal newMapEntry okMapEntry. Qed.
#[export] Hint Extern 0 (codec _ _ newMapEntry) => exact codec_mapEntry : codecs.

Lemma Forall_True {A} (l : list A) : Forall (fun _ => True) l.
Proof. induction l; auto. Qed.
#[export] Hint Resolve Forall_True : core.

Lemma codec_contactRequest : codec okContactRequest contactRequestMarshal newContactRequest.
Proof. auto_struct contactRequestMarshal newContactRequest okContactRequest. Qed.
Lemma codec_monitorResponse c : codec (okMonitorResponse c) monitorResponseMarshal (newMonitorResponse c).
Proof. auto_struct monitorResponseMarshal newMonitorResponse okMonitorResponse. Qed.
Lemma codec_ownerInitRequest : codec okOwnerInitRequest ownerInitRequestMarshal newOwnerInitRequest.
Proof. auto_struct ownerInitRequestMarshal newOwnerInitRequest okOwnerInitRequest. Qed.
Lemma codec_ownerInitResponse c : codec (okOwnerInitResponse c) ownerInitResponseMarshal (newOwnerInitResponse c).
Proof. auto_struct ownerInitResponseMarshal newOwnerInitResponse okOwnerInitResponse. Qed.
Lemma codec_ownerMonitorRequest : codec okOwnerMonitorRequest ownerMonitorRequestMarshal newOwnerMonitorRequest.
Proof. auto_struct ownerMonitorRequestMarshal newOwnerMonitorRequest okOwnerMonitorRequest. Qed.
Lemma codec_updateRequest : codec okUpdateRequest updateRequestMarshal newUpdateRequest.
Proof. auto_struct updateRequestMarshal newUpdateRequest okUpdateRequest. Qed.
Lemma codec_managerUpdateRequest c : codec (okManagerUpdateRequest c) managerUpdateRequestMarshal (newManagerUpdateRequest c).
Proof. auto_struct managerUpdateRequestMarshal newManagerUpdateRequest okManagerUpdateRequest. Qed.
Lemma codec_updateResponse c : codec (okUpdateResponse c) updateResponseMarshal (newUpdateResponse c).
Proof. auto_struct updateResponseMarshal newUpdateResponse okUpdateResponse. Qed.
Lemma codec_prefixEntry hs : codec (okPrefixEntry hs) prefixEntryMarshal (newPrefixEntry hs).
Proof. auto_struct prefixEntryMarshal newPrefixEntry okPrefixEntry. Qed.
#[export] Hint Extern 0 (codec _ _ (newPrefixEntry _)) => apply codec_prefixEntry : codecs.
Lemma codec_auditorUpdate hs : codec (okAuditorUpdate hs) auditorUpdateMarshal (newAuditorUpdate hs).
Proof. auto_struct auditorUpdateMarshal newAuditorUpdate okAuditorUpdate. Qed.
Opaque logEntryMarshal.
Lemma codec_indexedLogEntry hs : codec (okIndexedLogEntry hs) indexedLogEntryMarshal (newIndexedLogEntry hs).
Proof. auto_struct indexedLogEntryMarshal newIndexedLogEntry okIndexedLogEntry. Qed.
#[export] Hint Extern 0 (codec _ _ (newIndexedLogEntry _)) => apply codec_indexedLogEntry : codecs.
Lemma codec_retainedVersion hs : codec (okRetainedVersion hs) retainedVersionMarshal (newRetainedVersion hs).
Proof.
  unfold newRetainedVersion. split; [|split].
  - intros [v o [k|]] raw rest (O1 & O2 & O3) E; unfold retainedVersionMarshal in E; cbn in *; ib; fwd.
  - intros raw x rest E. ib. match goal with b : bool |- _ => destruct b end; ib; bwd; (split; [unfold okRetainedVersion; repeat match goal with |- _ /\ _ => split end; cbn; auto|unfold retainedVersionMarshal; cbn; fin]).
  - intro raw. sb.
Qed.
#[export] Hint Extern 0 (codec _ _ (newRetainedVersion _)) => apply codec_retainedVersion : codecs.
