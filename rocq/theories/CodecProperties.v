(** C33-C36: encodings of messages, signed payloads and stored client state (tree/transparency/structs). *)
From Verif Require Import Base PrefixModel CodecModel CodecSpec CodecProofs CodecProofs2 CodecProofs3 CodecExamples.
From Coq Require Import Permutation.

(** C33. Every message that is well-formed for the configuration and can be encoded is decoded back, whatever
    follows it in the buffer; every byte string that is decoded is the encoding of the well-formed message it
    decodes to; decoding any byte string gives a message or an error.  ([codec] is in CodecSpec.v.) *)
Theorem C33_messages_round_trip : forall c reqVersion,
  codec okSearchRequest searchRequestMarshal newSearchRequest /\
  codec (okSearchResponse c reqVersion) searchResponseMarshal (newSearchResponse c reqVersion) /\
  codec okContactRequest contactRequestMarshal newContactRequest /\
  codec (okMonitorResponse c) monitorResponseMarshal (newMonitorResponse c) /\
  codec okOwnerInitRequest ownerInitRequestMarshal newOwnerInitRequest /\
  codec (okOwnerInitResponse c) ownerInitResponseMarshal (newOwnerInitResponse c) /\
  codec okOwnerMonitorRequest ownerMonitorRequestMarshal newOwnerMonitorRequest /\
  codec okUpdateRequest updateRequestMarshal newUpdateRequest /\
  codec (okManagerUpdateRequest c) managerUpdateRequestMarshal (newManagerUpdateRequest c) /\
  codec (okUpdateResponse c) updateResponseMarshal (newUpdateResponse c) /\
  codec (okAuditorUpdate (pc_hs c)) auditorUpdateMarshal (newAuditorUpdate (pc_hs c)).
Proof.
  exact (fun c v => conj codec_searchRequest (conj (codec_searchResponse c v) (conj codec_contactRequest (conj (codec_monitorResponse c)
    (conj codec_ownerInitRequest (conj (codec_ownerInitResponse c) (conj codec_ownerMonitorRequest (conj codec_updateRequest
    (conj (codec_managerUpdateRequest c) (conj (codec_updateResponse c) (codec_auditorUpdate (pc_hs c)))))))))))).
Qed.
Print Assumptions C33_messages_round_trip.

(** The same for the structures they are built from and those stored by the server. *)
Theorem C33_parts_round_trip : forall c,
  codec okTreeHead treeHeadMarshal newTreeHead /\
  codec okAuditorTreeHead auditorTreeHeadMarshal newAuditorTreeHead /\
  codec (okFullTreeHead c) fullTreeHeadMarshal (newFullTreeHead c) /\
  codec (okCombinedProof (pc_hs c)) combinedProofMarshal (newCombinedProof (pc_hs c)) /\
  codec (okPrefixProof (pc_hs c)) prefixProofMarshal (newPrefixProof (pc_hs c)) /\
  codec (okUpdateValue c) updateValueMarshal (newUpdateValue c) /\
  codec (okLogEntry (pc_hs c)) logEntryMarshal (newLogEntry (pc_hs c)) /\
  codec (okLadderStep (pc_vrfSize c) (pc_hs c)) ladderStepMarshal (newLadderStep (pc_vrfSize c) (pc_hs c)) /\
  codec (okOpeningAndValue c) openingAndValueMarshal (newOpeningAndValue c) /\
  codec (okUpdateInfo c) updateInfoMarshal (newUpdateInfo c) /\
  codec okMapEntry mapEntryMarshal newMapEntry.
Proof.
  exact (fun c => conj codec_treeHead (conj codec_auditorTreeHead (conj (codec_fullTreeHead c) (conj (codec_combinedProof (pc_hs c))
    (conj (codec_prefixProof (pc_hs c)) (conj (codec_updateValue c) (conj (codec_logEntry (pc_hs c)) (conj (codec_ladderStep (pc_vrfSize c) (pc_hs c))
    (conj (codec_openingAndValue c) (conj (codec_updateInfo c) codec_mapEntry)))))))))).
Qed.
Print Assumptions C33_parts_round_trip.

(** The conditions of well-formedness are necessary: a tree head without the auditor's in auditing mode and
    a depth of 256 are written but not read back. *)
Theorem C33_outside_wellformed_refuted :
  (exists c f raw msg, pc_mode c = ThirdPartyAuditing /\ fullTreeHeadMarshal f = Ok raw /\ newFullTreeHead c raw = Fail msg) /\
  (exists p raw q, prefixProofMarshal p = Ok raw /\ newPrefixProof 2 raw = Ok (q, []) /\ q <> p).
Proof. exact (conj c33_head c33_depth). Qed.
Print Assumptions C33_outside_wellformed_refuted.

Example C33_example : exists raw, okSearchResponse (cfg ThirdPartyManagement) None respX /\
  searchResponseMarshal respX = Ok raw /\ List.length raw = 82%nat /\
  newSearchResponse (cfg ThirdPartyManagement) None (raw ++ [x2a]) = Ok (respX, [x2a]) /\
  exists msg, newSearchResponse (cfg ThirdPartyManagement) None (removelast raw) = Fail msg.
Proof.
  eexists. split.
  - repeat split; try discriminate; repeat constructor; cbn; try lia; try reflexivity; try (intros; eexists; reflexivity).
  - split; [vm_compute; reflexivity|]. split; [vm_compute; reflexivity|]. split; [vm_compute; reflexivity|]. eexists. vm_compute. reflexivity.
Qed.

(** C34. Signed, committed, hashed and VRF inputs determine their content. *)
Theorem C34_payloads_unambiguous :
  (forall l v l' v' raw, v < two32 -> v' < two32 -> vrfInput l v = Ok raw -> vrfInput l' v' = Ok raw -> l = l' /\ v = v') /\
  (forall l v u l' v' u' raw, v < two32 -> v' < two32 ->
     commitmentValue l v u = Ok raw -> commitmentValue l' v' u' = Ok raw -> l = l' /\ v = v' /\ u = u') /\
  (forall e e' raw, le_ts e < two64 -> le_ts e' < two64 -> logEntryMarshal e = Ok raw -> logEntryMarshal e' = Ok raw -> e = e') /\
  (forall c c' n n' root root' raw, okConfig c -> okConfig c' -> n < two64 -> n' < two64 ->
     treeHeadTBS c n root = Ok raw -> treeHeadTBS c' n' root' = Ok raw -> sameConfig c c' /\ n = n' /\ root = root') /\
  (forall c c' t t' n n' root root' raw, okConfig c -> okConfig c' -> t < two64 -> t' < two64 -> n < two64 -> n' < two64 ->
     auditorTreeHeadTBS c t n root = Ok raw -> auditorTreeHeadTBS c' t' n' root' = Ok raw ->
     sameConfig c c' /\ t = t' /\ n = n' /\ root = root') /\
  (forall c c' l l' v v' x x' raw, okConfig c -> okConfig c' -> v < two32 -> v' < two32 ->
     updateTBS c l v x = Ok raw -> updateTBS c' l' v' x' = Ok raw -> sameConfig c c' /\ l = l' /\ v = v' /\ x = x') /\
  (forall c c' n t' n' root root' raw, okConfig c -> okConfig c' -> List.length root = List.length root' ->
     treeHeadTBS c n root = Ok raw -> auditorTreeHeadTBS c' t' n' root' = Ok raw -> False).
Proof.
  exact (conj vrfInput_inj (conj commitmentValue_inj (conj logEntry_inj (conj treeHeadTBS_inj (conj auditorTreeHeadTBS_inj
    (conj updateTBS_inj treeHead_auditor_distinct)))))).
Qed.
Print Assumptions C34_payloads_unambiguous.

(** A label can not run into the version: the labels differ by the byte that follows. *)
Example C34_example :
  okConfig (cfg 1) /\ okConfig (cfg 3) /\
  vrfInput [x61] 1 = Ok [x01; x61; x00; x00; x00; x01] /\ vrfInput [x61; x00] 1 = Ok [x02; x61; x00; x00; x00; x00; x01] /\
  (exists a b, treeHeadTBS (cfg 1) 5 [x01] = Ok a /\ treeHeadTBS (cfg 3) 5 [x01] = Ok b /\ a <> b).
Proof.
  split; [repeat split|]. split; [repeat split|]. split; [vm_compute; reflexivity|]. split; [vm_compute; reflexivity|].
  do 2 eexists. split; [vm_compute; reflexivity|]. split; [vm_compute; reflexivity|]. discriminate.
Qed.

(** C35 fails: no label state with an owner can be read back. *)
Theorem C35_owner_state_refuted : forall hs x o raw,
  okLabelState hs x -> cl_owner x = Some o -> labelStateMarshal x = Ok raw -> exists msg, parseLabelState hs raw = Fail msg.
Proof. exact labelState_owner_lost. Qed.
Print Assumptions C35_owner_state_refuted.

Example C35_owner_example : okLabelState 2 ownX /\ exists raw, labelStateMarshal ownX = Ok raw.
Proof. split; [exact ownX_ok|eexists; vm_compute; reflexivity]. Qed.

(** Nor is a truncated state noticed. *)
Theorem C35_truncation_refuted : exists x raw, okLabelState 2 x /\ labelStateMarshal x = Ok raw /\
  exists y, parseLabelState 2 (removelast raw) = Ok y /\ cl_versions x <> [] /\ cl_versions y = [].
Proof. exact c35_truncated. Qed.
Print Assumptions C35_truncation_refuted.

(** C35 holds for label states without an owner. *)
Theorem C35_label_state_partial : forall hs x raw,
  okLabelState hs x -> cl_owner x = None -> labelStateMarshal x = Ok raw -> parseLabelState hs raw = Ok x.
Proof. exact labelState_rt. Qed.
Print Assumptions C35_label_state_partial.

Example C35_example : exists raw,
  let x := {| cl_contact := [(3, 1)]; cl_owner := None; cl_versions := cl_versions ownX |} in
  okLabelState 2 x /\ labelStateMarshal x = Ok raw /\ parseLabelState 2 raw = Ok x.
Proof. eexists. split; [repeat split; repeat constructor|]. split; vm_compute; reflexivity. Qed.

(** C36 fails: under third-party auditing, after an answer that the tree head is unchanged, the client stores
    a state it can not read. *)
Theorem C36_client_state_refuted : exists c old fth subtrees entries raw msg,
  okClientState c old /\ (exists a, cs_auditor old = Some a) /\ pc_mode c = ThirdPartyAuditing /\ okFullTreeHead c fth /\
  okClientState c (finishState old fth subtrees entries) /\
  clientStateMarshal (finishState old fth subtrees entries) entries = Ok raw /\ parseState c raw = Fail msg.
Proof. exact c36_refuted. Qed.
Print Assumptions C36_client_state_refuted.

(** C36 holds for states which carry an auditor tree head exactly in auditing mode, whatever the order in which
    the map of log entries is written. *)
Theorem C36_client_state_partial : forall c x order raw,
  okClientState c x -> Permutation order (cs_entries x) -> (cs_auditor x = None <-> pc_mode c <> ThirdPartyAuditing) ->
  clientStateMarshal x order = Ok raw -> exists y, parseState c raw = Ok y /\ sameState x y.
Proof. exact clientState_rt. Qed.
Print Assumptions C36_client_state_partial.

Example C36_example : exists raw, clientStateMarshal oldX (cs_entries oldX) = Ok raw /\ parseState (cfg 3) raw = Ok oldX.
Proof. eexists. split; vm_compute; reflexivity. Qed.
