(** Specification of encodings: well-formed values and what it means to be an unambiguous encoding. *)
From Verif Require Import Base PrefixModel CodecModel.

(** The result is a value or an error (no crash). *)
Definition safe {A} (r : res A) : Prop := (exists a, r = Ok a) \/ (exists m, r = Fail m).

(** [w] encodes the well-formed values ([ok]) and [g] decodes:
    - what can be encoded is decoded back, consuming exactly the encoding;
    - only encodings of well-formed values are decoded (the encoding is canonical);
    - decoding arbitrary bytes returns a value or an error. *)
Definition codec {A} (ok : A -> Prop) (w : A -> put) (g : getter A) : Prop :=
  (forall x raw rest, ok x -> w x = Ok raw -> g (raw ++ rest) = Ok (x, rest)) /\
  (forall raw x rest, g raw = Ok (x, rest) -> ok x /\ exists pre, w x = Ok pre /\ raw = pre ++ rest) /\
  (forall raw, safe (g raw)).

(** ** Well-formed values: numbers in the range of their type, fixed-size fields of their size *)

Definition u32ok (x : N) : Prop := x < two32.
Definition u64ok (x : N) : Prop := x < two64.
Definition optok {A} (P : A -> Prop) (o : option A) : Prop := match o with Some x => P x | None => True end.
Definition size (k : nat) (b : bytes) : Prop := List.length b = k.

(** A depth is stored in one byte. *)
Definition okResult (hs : nat) (r : presult) : Prop :=
  (rdepth r <= 255)%nat /\ match r with NonLeaf v c _ => size hs v /\ size hs c | _ => True end.
Definition okPrefixProof (hs : nat) (p : pproof) : Prop :=
  Forall (okResult hs) (p_results p) /\ Forall (size hs) (p_elements p).

Definition okTreeHead (t : treeHead) : Prop := u64ok (th_size t).
Definition okAuditorTreeHead (a : auditorTreeHead) : Prop := u64ok (ath_ts a) /\ u64ok (ath_size a).
(** Whether an auditor tree head is present depends on the deployment mode. *)
Definition okFullTreeHead (c : pubConfig) (f : fullTreeHead) : Prop :=
  match fth_head f, fth_auditor f with
  | None, None => True
  | None, Some _ => False
  | Some th, Some ath => pc_mode c = ThirdPartyAuditing /\ okTreeHead th /\ okAuditorTreeHead ath
  | Some th, None => pc_mode c <> ThirdPartyAuditing /\ okTreeHead th
  end.

Definition okCombinedProof (hs : nat) (c : combinedProof) : Prop :=
  Forall u64ok (cp_ts c) /\ Forall (okPrefixProof hs) (cp_proofs c) /\ Forall (size hs) (cp_roots c) /\
  Forall (size hs) (cp_incl c).

(** Operator signatures are present exactly under third-party management. *)
Definition okSuffix (c : pubConfig) (s : option bytes) : Prop := (exists x, s = Some x) <-> pc_mode c = ThirdPartyManagement.
Definition okUpdateValue (c : pubConfig) (u : updateValue) : Prop := okSuffix c (uv_sig u).
Definition okLogEntry (hs : nat) (e : logEntry) : Prop := u64ok (le_ts e) /\ size hs (le_root e).
Definition okLadderStep (vs hs : nat) (s : ladderStep) : Prop := size vs (ls_proof s) /\ optok (size hs) (ls_commitment s).
Definition okOpeningAndValue (c : pubConfig) (x : openingAndValue) : Prop :=
  size (pc_openSize c) (ov_opening x) /\ okUpdateValue c (ov_value x).
Definition okUpdateInfo (c : pubConfig) (x : updateInfo) : Prop := size (pc_openSize c) (ui_opening x) /\ okSuffix c (ui_sig x).

Definition okSearchRequest (x : searchRequest) : Prop := optok u64ok (sq_last x) /\ optok u32ok (sq_version x).
(** The response carries the version exactly if the request did not. *)
Definition okSearchResponse (c : pubConfig) (reqVersion : option N) (x : searchResponse) : Prop :=
  okFullTreeHead c (sr_head x) /\
  match sr_version x, reqVersion with Some v, None => u32ok v | None, Some _ => True | _, _ => False end /\
  size (pc_openSize c) (sr_opening x) /\ okUpdateValue c (sr_value x) /\
  Forall (okLadderStep (pc_vrfSize c) (pc_hs c)) (sr_ladder x) /\ okCombinedProof (pc_hs c) (sr_search x).
Definition okMapEntry (e : mapEntry) : Prop := u64ok (fst e) /\ u32ok (snd e).
Definition okContactRequest (x : contactRequest) : Prop := optok u64ok (cq_last x) /\ Forall okMapEntry (cq_entries x).
Definition okMonitorResponse (c : pubConfig) (x : monitorResponse) : Prop :=
  okFullTreeHead c (mr_head x) /\ okCombinedProof (pc_hs c) (mr_monitor x).
Definition okOwnerInitRequest (x : ownerInitRequest) : Prop := optok u64ok (iq_last x) /\ u64ok (iq_start x).
Definition okOwnerInitResponse (c : pubConfig) (x : ownerInitResponse) : Prop :=
  okFullTreeHead c (ir_head x) /\ Forall u32ok (ir_versions x) /\
  Forall (okLadderStep (pc_vrfSize c) (pc_hs c)) (ir_ladder x) /\ okCombinedProof (pc_hs c) (ir_init x).
Definition okOwnerMonitorRequest (x : ownerMonitorRequest) : Prop :=
  optok u64ok (oq_last x) /\ Forall okMapEntry (oq_entries x) /\ u64ok (oq_start x) /\ optok u32ok (oq_greatest x).
Definition okUpdateRequest (x : updateRequest) : Prop := optok u64ok (uq_last x) /\ optok u32ok (uq_greatest x).
Definition okManagerUpdateRequest (c : pubConfig) (x : managerUpdateRequest) : Prop :=
  optok u64ok (mq_last x) /\ optok u32ok (mq_greatest x) /\ u32ok (mq_signed x) /\ Forall (okUpdateValue c) (mq_values x).
Definition okUpdateResponse (c : pubConfig) (x : updateResponse) : Prop :=
  okFullTreeHead c (ur_head x) /\ u64ok (ur_position x) /\ Forall (okUpdateInfo c) (ur_info x) /\
  Forall (okLadderStep (pc_vrfSize c) (pc_hs c)) (ur_ladder x) /\ okCombinedProof (pc_hs c) (ur_update x).
Definition okPrefixEntry (hs : nat) (e : bytes * bytes) : Prop := size hs (fst e) /\ size hs (snd e).
Definition okAuditorUpdate (hs : nat) (x : auditorUpdate) : Prop :=
  u64ok (au_ts x) /\ Forall (okPrefixEntry hs) (au_added x) /\ Forall (okPrefixEntry hs) (au_removed x) /\
  okPrefixProof hs (au_proof x).
Definition okIndexedLogEntry (hs : nat) (x : N * logEntry) : Prop := u64ok (fst x) /\ okLogEntry hs (snd x).
Definition okRetainedVersion (hs : nat) (x : retainedVersion) : Prop :=
  u32ok (rv_version x) /\ size hs (rv_vrf x) /\ optok (size hs) (rv_commitment x).

Definition okConfig (c : pubConfig) : Prop :=
  pc_suite c < 65536 /\ pc_mode c < 256 /\ u64ok (pc_maxAuditorLag c) /\ u64ok (pc_auditorStart c) /\
  u64ok (pc_maxAhead c) /\ u64ok (pc_maxBehind c) /\ u64ok (pc_rmw c) /\ u64ok (pc_maxLife c).
(** Configurations that agree on everything that is relevant in their mode (the sizes are determined by the
    cipher suite). *)
Definition sameConfig (c d : pubConfig) : Prop :=
  pc_suite c = pc_suite d /\ pc_mode c = pc_mode d /\ pc_sigKey c = pc_sigKey d /\ pc_vrfKey c = pc_vrfKey d /\
  (pc_mode c = ThirdPartyManagement -> pc_leafKey c = pc_leafKey d) /\
  (pc_mode c = ThirdPartyAuditing -> pc_maxAuditorLag c = pc_maxAuditorLag d /\ pc_auditorStart c = pc_auditorStart d /\
     pc_auditorKey c = pc_auditorKey d) /\
  pc_maxAhead c = pc_maxAhead d /\ pc_maxBehind c = pc_maxBehind d /\ pc_rmw c = pc_rmw d /\ pc_maxLife c = pc_maxLife d.

Definition okClientState (c : pubConfig) (x : clientState) : Prop :=
  okTreeHead (cs_head x) /\ optok okAuditorTreeHead (cs_auditor x) /\
  Forall (size (pc_hs c)) (cs_subtrees x) /\ Forall (okIndexedLogEntry (pc_hs c)) (cs_entries x) /\
  NoDup (map fst (cs_entries x)).
(** Equal states (maps are compared by their bindings). *)
Definition sameState (x y : clientState) : Prop :=
  cs_head x = cs_head y /\ cs_auditor x = cs_auditor y /\ cs_subtrees x = cs_subtrees y /\
  forall p, mget (cs_entries x) p = mget (cs_entries y) p.
Definition okOwnerState (o : ownerState) : Prop := u64ok (os_starting o) /\ Forall u64ok (os_upcoming o).
Definition okLabelState (hs : nat) (x : labelState) : Prop :=
  Forall okMapEntry (cl_contact x) /\ optok okOwnerState (cl_owner x) /\ Forall (okRetainedVersion hs) (cl_versions x).
