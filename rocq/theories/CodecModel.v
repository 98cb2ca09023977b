(** Model of tree/transparency/structs (structs.go, tree_head.go, proofs.go, config.go, crypto.go,
    operations.go, third_party.go, client.go) and of the encoding in tree/prefix/proof.go.

    A [Marshal] method appends to a buffer: it is modelled by the bytes it appends (what was written before an
    error is dropped by [structs.Marshal], structs.go:18-24).  A [New...] function takes the buffer and returns the
    value and the rest of the buffer.  A byte slice which is only ever compared by content is a list (nil =
    empty); slices tested for nil are [option]s.  Allocation of large buffers always succeeds. *)
From Verif Require Import Base PrefixModel.

(** ** structs.go *)

Definition put := res bytes.
Definition getter (A : Type) : Type := bytes -> res (A * bytes).

(** structs.go:30-36 [readNumeric] for an unsigned type of [k] bytes *)
Definition readNum (k : nat) : getter N := fun buf =>
  let* (b, r) := readFull k buf in Ok (unbe b, r).
(** structs.go:38-40 [writeNumeric] for an unsigned type of [k] bytes (the argument is in range) *)
Definition writeNum (k : nat) (v : N) : bytes := be k v.

(** [readNumeric[int]]: encoding/binary only supports fixed-size types; reading into an [*int] returns the error
    "binary.Read: invalid type *int". *)
Definition readInt : getter Z := fun _ => Fail "binary.Read: invalid type *int".
(** [writeNumeric[int]]: binary.Write returns an error, which is dropped, and nothing is written. *)
Definition writeInt (v : Z) : bytes := [].

(** structs.go:42-50 *)
Definition readOptional : getter bool := fun buf =>
  let* (b, r) := readByte buf in
  if b2n b =? 0 then Ok (false, r) else if b2n b =? 1 then Ok (true, r)
  else Fail "read unexpected value in optional".
(** structs.go:52-59 *)
Definition writeOptional (present : bool) : bytes := if present then [x01] else [x00].

(** structs.go:61-75 *)
Definition readOptionalNum (k : nat) : getter (option N) := fun buf =>
  let* (p, r) := readOptional buf in
  if p then (let* (v, r') := readNum k r in Ok (Some v, r')) else Ok (None, r).
(** structs.go:77-81 *)
Definition writeOptionalNum (k : nat) (v : option N) : bytes :=
  match v with Some x => writeOptional true ++ writeNum k x | None => writeOptional false end.

(** structs.go:87 [max[S]()] for a size parameter of [k] bytes *)
Definition maxS (k : nat) : N := 256 ^ N.of_nat k - 1.

(** structs.go:89-99 *)
Definition readBytes (k : nat) : getter bytes := fun buf =>
  let* (size, r) := readNum k buf in readFull (N.to_nat size) r.
(** structs.go:101-108 *)
Definition writeBytes (k : nat) (out : bytes) : put :=
  if maxS k <? lenN out then Fail "too long to marshal" else Ok (writeNum k (lenN out) ++ out).

(** [for i := range int(size)] calling a getter *)
Fixpoint getMany {A} (g : getter A) (size : nat) : getter (list A) := fun buf =>
  match size with
  | O => Ok ([], buf)
  | S k => let* (x, r) := g buf in let* (xs, r') := getMany g k r in Ok (x :: xs, r')
  end.

(** structs.go:110-124, 137-151, 168-185: [readByteSlice], [readNumericSlice], [readFuncSlice] *)
Definition readSlice {A} (k : nat) (g : getter A) : getter (list A) := fun buf =>
  let* (size, r) := readNum k buf in getMany g (N.to_nat size) r.
(** structs.go:126-135, 153-166, 187-203, 205-219: [writeByteSlice], [writeNumericSlice], [writeFuncSlice],
    [writeMarshalSlice] *)
Definition writeSlice {A} (k : nat) (w : A -> put) (out : list A) : put :=
  if maxS k <? lenN out then Fail "list is too long to marshal" else
  let* bs := mapM w out in Ok (writeNum k (lenN out) ++ List.concat bs).

(** ** config.go *)

(** config.go:18-34, 61-65.  The cipher suite is represented by its id and sizes, keys by their encodings
    ([Bytes()]). *)
Record pubConfig := {
  pc_suite : N; pc_hs : nat; pc_openSize : nat; pc_vrfSize : nat;
  pc_mode : N;
  pc_sigKey : bytes; pc_vrfKey : bytes;
  pc_leafKey : bytes;
  pc_maxAuditorLag : N; pc_auditorStart : N; pc_auditorKey : bytes;
  pc_maxAhead : N; pc_maxBehind : N; pc_rmw : N; pc_maxLife : N }.

(** config.go:12-16 *)
Definition ContactMonitoring : N := 1.
Definition ThirdPartyManagement : N := 2.
Definition ThirdPartyAuditing : N := 3.

(** config.go:36-41 *)
Definition isExpired (maxLife ts rightmost : N) : bool :=
  if maxLife =? 0 then false else maxLife <=? sub64 rightmost ts.
(** config.go:43-45 *)
Definition isDistinguished (rmw left right : N) : bool := rmw <=? sub64 right left.

(** config.go:67-99 *)
Definition pubConfigMarshal (c : pubConfig) : put :=
  let* a := writeBytes 2 (pc_sigKey c) in
  let* b := writeBytes 2 (pc_vrfKey c) in
  let* m := (if pc_mode c =? ThirdPartyManagement then writeBytes 2 (pc_leafKey c)
             else if pc_mode c =? ThirdPartyAuditing then
               (let* k := writeBytes 2 (pc_auditorKey c) in
                Ok (writeNum 8 (pc_maxAuditorLag c) ++ writeNum 8 (pc_auditorStart c) ++ k))
             else Ok []) in
  Ok (writeNum 2 (pc_suite c) ++ writeNum 1 (pc_mode c) ++ a ++ b ++ m ++
      writeNum 8 (pc_maxAhead c) ++ writeNum 8 (pc_maxBehind c) ++ writeNum 8 (pc_rmw c) ++
      (if 0 <? pc_maxLife c then writeOptional true ++ writeNum 8 (pc_maxLife c) else writeOptional false)).

(** ** tree/prefix/proof.go *)

(** proof.go:88-91, 101-106, 115-118 *)
Definition resultMarshal (r : presult) : put :=
  match r with
  | Inc d => Ok [x01; n2b (N.of_nat d)]
  | NonLeaf v c d => Ok (x02 :: v ++ c ++ [n2b (N.of_nat d)])
  | NonPar d => Ok [x03; n2b (N.of_nat d)]
  end.
(** proof.go:120-162 *)
Definition newResult (hs : nat) : getter presult := fun buf =>
  let* (t, r) := readByte buf in
  if b2n t =? 1 then (let* (d, r1) := readByte r in Ok (Inc (N.to_nat (b2n d)), r1))
  else if b2n t =? 2 then
    (let* (v, r1) := readFull hs r in
     let* (c, r2) := readFull hs r1 in
     let* (d, r3) := readByte r2 in Ok (NonLeaf v c (N.to_nat (b2n d)), r3))
  else if b2n t =? 3 then (let* (d, r1) := readByte r in Ok (NonPar (N.to_nat (b2n d)), r1))
  else Fail "invalid prefix search result type read".
(** proof.go:54-72 *)
Definition prefixProofMarshal (p : pproof) : put :=
  let* rs := writeSlice 1 resultMarshal (p_results p) in
  let* es := writeSlice 2 (fun e => Ok e) (p_elements p) in
  Ok (rs ++ es).
(** proof.go:24-52 *)
Definition newPrefixProof (hs : nat) : getter pproof := fun buf =>
  let* (rs, r1) := readSlice 1 (newResult hs) buf in
  let* (es, r2) := readSlice 2 (readFull hs) r1 in
  Ok ({| p_results := rs; p_elements := es |}, r2).

(** ** tree_head.go *)

(** tree_head.go:8-11 *)
Record treeHead := { th_size : N; th_sig : bytes }.
(** tree_head.go:13-23 *)
Definition newTreeHead : getter treeHead := fun buf =>
  let* (n, r1) := readNum 8 buf in
  let* (s, r2) := readBytes 2 r1 in
  Ok ({| th_size := n; th_sig := s |}, r2).
(** tree_head.go:25-28 *)
Definition treeHeadMarshal (t : treeHead) : put :=
  let* s := writeBytes 2 (th_sig t) in Ok (writeNum 8 (th_size t) ++ s).

(** tree_head.go:30-43 *)
Definition treeHeadTBS (c : pubConfig) (size : N) (root : bytes) : put :=
  let* cb := pubConfigMarshal c in Ok (cb ++ writeNum 8 size ++ root).

(** tree_head.go:45-49 *)
Record auditorTreeHead := { ath_ts : N; ath_size : N; ath_sig : bytes }.
(** tree_head.go:51-65 *)
Definition newAuditorTreeHead : getter auditorTreeHead := fun buf =>
  let* (t, r1) := readNum 8 buf in
  let* (n, r2) := readNum 8 r1 in
  let* (s, r3) := readBytes 2 r2 in
  Ok ({| ath_ts := t; ath_size := n; ath_sig := s |}, r3).
(** tree_head.go:67-71 *)
Definition auditorTreeHeadMarshal (a : auditorTreeHead) : put :=
  let* s := writeBytes 2 (ath_sig a) in Ok (writeNum 8 (ath_ts a) ++ writeNum 8 (ath_size a) ++ s).

(** tree_head.go:73-88 *)
Definition auditorTreeHeadTBS (c : pubConfig) (ts size : N) (root : bytes) : put :=
  let* cb := pubConfigMarshal c in Ok (cb ++ writeNum 8 ts ++ writeNum 8 size ++ root).

(** tree_head.go:97-100 *)
Record fullTreeHead := { fth_head : option treeHead; fth_auditor : option auditorTreeHead }.
(** tree_head.go:102-130 *)
Definition newFullTreeHead (c : pubConfig) : getter fullTreeHead := fun buf =>
  let* (b, r) := readByte buf in
  if negb (b2n b =? 1) && negb (b2n b =? 2) then Fail "unexpected head type read"
  else if b2n b =? 2 then
    let* (th, r1) := newTreeHead r in
    if pc_mode c =? ThirdPartyAuditing then
      let* (ath, r2) := newAuditorTreeHead r1 in
      Ok ({| fth_head := Some th; fth_auditor := Some ath |}, r2)
    else Ok ({| fth_head := Some th; fth_auditor := None |}, r1)
  else Ok ({| fth_head := None; fth_auditor := None |}, r).
(** tree_head.go:132-148 *)
Definition fullTreeHeadMarshal (f : fullTreeHead) : put :=
  match fth_head f with
  | None => Ok [x01]
  | Some th =>
      let* a := treeHeadMarshal th in
      match fth_auditor f with
      | Some ath => let* b := auditorTreeHeadMarshal ath in Ok (x02 :: a ++ b)
      | None => Ok (x02 :: a)
      end
  end.

(** ** proofs.go *)

(** proofs.go:14-24, [InclusionProof] is its list of elements *)
Definition newInclusionProof (hs : nat) : getter (list bytes) := readSlice 2 (readFull hs).
Definition inclusionProofMarshal (es : list bytes) : put := writeSlice 2 (fun e => Ok e) es.

(** proofs.go:26-32 *)
Record combinedProof := { cp_ts : list N; cp_proofs : list pproof; cp_roots : list bytes; cp_incl : list bytes }.
(** proofs.go:34-54 *)
Definition newCombinedProof (hs : nat) : getter combinedProof := fun buf =>
  let* (ts, r1) := readSlice 1 (readNum 8) buf in
  let* (ps, r2) := readSlice 1 (newPrefixProof hs) r1 in
  let* (rs, r3) := readSlice 1 (readFull hs) r2 in
  let* (i, r4) := newInclusionProof hs r3 in
  Ok ({| cp_ts := ts; cp_proofs := ps; cp_roots := rs; cp_incl := i |}, r4).
(** proofs.go:56-65 *)
Definition combinedProofMarshal (c : combinedProof) : put :=
  let* a := writeSlice 1 (fun t => Ok (writeNum 8 t)) (cp_ts c) in
  let* b := writeSlice 1 prefixProofMarshal (cp_proofs c) in
  let* d := writeSlice 1 (fun e => Ok e) (cp_roots c) in
  let* e := inclusionProofMarshal (cp_incl c) in
  Ok (a ++ b ++ d ++ e).

(** ** crypto.go *)

(** crypto.go:10-23: [UpdateSuffix] is its signature (nil = [None]) *)
Definition newUpdateSuffix (c : pubConfig) : getter (option bytes) := fun buf =>
  if negb (pc_mode c =? ThirdPartyManagement) then Ok (None, buf)
  else (let* (s, r) := readBytes 2 buf in Ok (Some s, r)).
(** crypto.go:25-30 *)
Definition updateSuffixMarshal (s : option bytes) : put :=
  match s with None => Ok [] | Some x => writeBytes 2 x end.

(** crypto.go:32-35 *)
Record updateValue := { uv_value : bytes; uv_sig : option bytes }.
(** crypto.go:37-47 *)
Definition newUpdateValue (c : pubConfig) : getter updateValue := fun buf =>
  let* (v, r1) := readBytes 4 buf in
  let* (s, r2) := newUpdateSuffix c r1 in
  Ok ({| uv_value := v; uv_sig := s |}, r2).
(** crypto.go:49-54 *)
Definition updateValueMarshal (u : updateValue) : put :=
  let* a := writeBytes 4 (uv_value u) in
  let* b := updateSuffixMarshal (uv_sig u) in
  Ok (a ++ b).

(** crypto.go:56-71 *)
Definition updateTBS (c : pubConfig) (label : bytes) (version : N) (value : bytes) : put :=
  let* cb := pubConfigMarshal c in
  let* l := writeBytes 1 label in
  let* v := writeBytes 4 value in
  Ok (cb ++ l ++ writeNum 4 version ++ v).

(** crypto.go:73-85 *)
Definition commitmentValue (label : bytes) (version : N) (u : updateValue) : put :=
  let* l := writeBytes 1 label in
  let* b := updateValueMarshal u in
  Ok (l ++ writeNum 4 version ++ b).

(** crypto.go:87-98 *)
Definition vrfInput (label : bytes) (version : N) : put :=
  let* l := writeBytes 1 label in Ok (l ++ writeNum 4 version).

(** crypto.go:100-103 *)
Record logEntry := { le_ts : N; le_root : bytes }.
(** crypto.go:105-115 *)
Definition newLogEntry (hs : nat) : getter logEntry := fun buf =>
  let* (t, r1) := readNum 8 buf in
  let* (p, r2) := readFull hs r1 in
  Ok ({| le_ts := t; le_root := p |}, r2).
(** crypto.go:117-121 *)
Definition logEntryMarshal (e : logEntry) : put := Ok (writeNum 8 (le_ts e) ++ le_root e).

(** crypto.go:133-136 *)
Record ladderStep := { ls_proof : bytes; ls_commitment : option bytes }.
(** crypto.go:138-155 *)
Definition newLadderStep (vs hs : nat) : getter ladderStep := fun buf =>
  let* (p, r1) := readFull vs buf in
  let* (o, r2) := readOptional r1 in
  if o then (let* (c, r3) := readFull hs r2 in Ok ({| ls_proof := p; ls_commitment := Some c |}, r3))
  else Ok ({| ls_proof := p; ls_commitment := None |}, r2).
(** crypto.go:157-163 *)
Definition ladderStepMarshal (s : ladderStep) : put :=
  Ok (ls_proof s ++ match ls_commitment s with Some c => writeOptional true ++ c | None => writeOptional false end).

(** crypto.go:165-168 *)
Record openingAndValue := { ov_opening : bytes; ov_value : updateValue }.
(** crypto.go:170-180 *)
Definition newOpeningAndValue (c : pubConfig) : getter openingAndValue := fun buf =>
  let* (o, r1) := readFull (pc_openSize c) buf in
  let* (v, r2) := newUpdateValue c r1 in
  Ok ({| ov_opening := o; ov_value := v |}, r2).
(** crypto.go:182-185 *)
Definition openingAndValueMarshal (x : openingAndValue) : put :=
  let* v := updateValueMarshal (ov_value x) in Ok (ov_opening x ++ v).

(** crypto.go:187-201: [LabelValue] is its value *)
Definition newLabelValue : getter bytes := readBytes 4.
Definition labelValueMarshal (v : bytes) : put := writeBytes 4 v.

(** crypto.go:203-206 *)
Record updateInfo := { ui_opening : bytes; ui_sig : option bytes }.
(** crypto.go:208-218 *)
Definition newUpdateInfo (c : pubConfig) : getter updateInfo := fun buf =>
  let* (o, r1) := readFull (pc_openSize c) buf in
  let* (s, r2) := newUpdateSuffix c r1 in
  Ok ({| ui_opening := o; ui_sig := s |}, r2).
(** crypto.go:220-223 *)
Definition updateInfoMarshal (x : updateInfo) : put :=
  let* s := updateSuffixMarshal (ui_sig x) in Ok (ui_opening x ++ s).

(** ** operations.go *)

(** operations.go:8-13 *)
Record searchRequest := { sq_last : option N; sq_label : bytes; sq_version : option N }.
(** operations.go:15-29 *)
Definition newSearchRequest : getter searchRequest := fun buf =>
  let* (l, r1) := readOptionalNum 8 buf in
  let* (b, r2) := readBytes 1 r1 in
  let* (v, r3) := readOptionalNum 4 r2 in
  Ok ({| sq_last := l; sq_label := b; sq_version := v |}, r3).
(** operations.go:31-38 *)
Definition searchRequestMarshal (x : searchRequest) : put :=
  let* b := writeBytes 1 (sq_label x) in
  Ok (writeOptionalNum 8 (sq_last x) ++ b ++ writeOptionalNum 4 (sq_version x)).

(** operations.go:40-49 *)
Record searchResponse := { sr_head : fullTreeHead; sr_version : option N; sr_opening : bytes; sr_value : updateValue;
  sr_ladder : list ladderStep; sr_search : combinedProof }.
(** operations.go:51-90; [reqVersion] is [req.Version] *)
Definition newSearchResponse (c : pubConfig) (reqVersion : option N) : getter searchResponse := fun buf =>
  let* (h, r1) := newFullTreeHead c buf in
  let* (v, r2) := match reqVersion with
                  | None => let* (x, r) := readNum 4 r1 in Ok (Some x, r)
                  | Some _ => Ok (None, r1)
                  end in
  let* (o, r3) := readFull (pc_openSize c) r2 in
  let* (u, r4) := newUpdateValue c r3 in
  let* (l, r5) := readSlice 1 (newLadderStep (pc_vrfSize c) (pc_hs c)) r4 in
  let* (s, r6) := newCombinedProof (pc_hs c) r5 in
  Ok ({| sr_head := h; sr_version := v; sr_opening := o; sr_value := u; sr_ladder := l; sr_search := s |}, r6).
(** operations.go:92-109 *)
Definition searchResponseMarshal (x : searchResponse) : put :=
  let* h := fullTreeHeadMarshal (sr_head x) in
  let* u := updateValueMarshal (sr_value x) in
  let* l := writeSlice 1 ladderStepMarshal (sr_ladder x) in
  let* s := combinedProofMarshal (sr_search x) in
  Ok (h ++ match sr_version x with Some v => writeNum 4 v | None => [] end ++ sr_opening x ++ u ++ l ++ s).

(** operations.go:111-132: position, version *)
Definition mapEntry : Type := N * N.
Definition newMapEntry : getter mapEntry := fun buf =>
  let* (p, r1) := readNum 8 buf in
  let* (v, r2) := readNum 4 r1 in
  Ok ((p, v), r2).
Definition mapEntryMarshal (e : mapEntry) : put := Ok (writeNum 8 (fst e) ++ writeNum 4 (snd e)).

(** operations.go:134-139 *)
Record contactRequest := { cq_last : option N; cq_label : bytes; cq_entries : list mapEntry }.
(** operations.go:141-155 *)
Definition newContactRequest : getter contactRequest := fun buf =>
  let* (l, r1) := readOptionalNum 8 buf in
  let* (b, r2) := readBytes 1 r1 in
  let* (e, r3) := readSlice 1 newMapEntry r2 in
  Ok ({| cq_last := l; cq_label := b; cq_entries := e |}, r3).
(** operations.go:157-163 *)
Definition contactRequestMarshal (x : contactRequest) : put :=
  let* b := writeBytes 1 (cq_label x) in
  let* e := writeSlice 1 mapEntryMarshal (cq_entries x) in
  Ok (writeOptionalNum 8 (cq_last x) ++ b ++ e).

(** operations.go:165-190 [ContactMonitorResponse] and 313-338 [OwnerMonitorResponse], which have the same fields *)
Record monitorResponse := { mr_head : fullTreeHead; mr_monitor : combinedProof }.
Definition newMonitorResponse (c : pubConfig) : getter monitorResponse := fun buf =>
  let* (h, r1) := newFullTreeHead c buf in
  let* (m, r2) := newCombinedProof (pc_hs c) r1 in
  Ok ({| mr_head := h; mr_monitor := m |}, r2).
Definition monitorResponseMarshal (x : monitorResponse) : put :=
  let* h := fullTreeHeadMarshal (mr_head x) in
  let* m := combinedProofMarshal (mr_monitor x) in
  Ok (h ++ m).

(** operations.go:192-197 *)
Record ownerInitRequest := { iq_last : option N; iq_label : bytes; iq_start : N }.
(** operations.go:199-213 *)
Definition newOwnerInitRequest : getter ownerInitRequest := fun buf =>
  let* (l, r1) := readOptionalNum 8 buf in
  let* (b, r2) := readBytes 1 r1 in
  let* (s, r3) := readNum 8 r2 in
  Ok ({| iq_last := l; iq_label := b; iq_start := s |}, r3).
(** operations.go:215-222 *)
Definition ownerInitRequestMarshal (x : ownerInitRequest) : put :=
  let* b := writeBytes 1 (iq_label x) in
  Ok (writeOptionalNum 8 (iq_last x) ++ b ++ writeNum 8 (iq_start x)).

(** operations.go:224-230 *)
Record ownerInitResponse := { ir_head : fullTreeHead; ir_versions : list N; ir_ladder : list ladderStep; ir_init : combinedProof }.
(** operations.go:232-255 *)
Definition newOwnerInitResponse (c : pubConfig) : getter ownerInitResponse := fun buf =>
  let* (h, r1) := newFullTreeHead c buf in
  let* (v, r2) := readSlice 1 (readNum 4) r1 in
  let* (l, r3) := readSlice 2 (newLadderStep (pc_vrfSize c) (pc_hs c)) r2 in
  let* (i, r4) := newCombinedProof (pc_hs c) r3 in
  Ok ({| ir_head := h; ir_versions := v; ir_ladder := l; ir_init := i |}, r4).
(** operations.go:257-266 *)
Definition ownerInitResponseMarshal (x : ownerInitResponse) : put :=
  let* h := fullTreeHeadMarshal (ir_head x) in
  let* v := writeSlice 1 (fun n => Ok (writeNum 4 n)) (ir_versions x) in
  let* l := writeSlice 2 ladderStepMarshal (ir_ladder x) in
  let* i := combinedProofMarshal (ir_init x) in
  Ok (h ++ v ++ l ++ i).

(** operations.go:268-275 *)
Record ownerMonitorRequest := { oq_last : option N; oq_label : bytes; oq_entries : list mapEntry; oq_start : N;
  oq_greatest : option N }.
(** operations.go:277-299 *)
Definition newOwnerMonitorRequest : getter ownerMonitorRequest := fun buf =>
  let* (l, r1) := readOptionalNum 8 buf in
  let* (b, r2) := readBytes 1 r1 in
  let* (e, r3) := readSlice 1 newMapEntry r2 in
  let* (s, r4) := readNum 8 r3 in
  let* (g, r5) := readOptionalNum 4 r4 in
  Ok ({| oq_last := l; oq_label := b; oq_entries := e; oq_start := s; oq_greatest := g |}, r5).
(** operations.go:301-311 *)
Definition ownerMonitorRequestMarshal (x : ownerMonitorRequest) : put :=
  let* b := writeBytes 1 (oq_label x) in
  let* e := writeSlice 1 mapEntryMarshal (oq_entries x) in
  Ok (writeOptionalNum 8 (oq_last x) ++ b ++ e ++ writeNum 8 (oq_start x) ++ writeOptionalNum 4 (oq_greatest x)).

(** operations.go:340-346 *)
Record updateRequest := { uq_last : option N; uq_label : bytes; uq_greatest : option N; uq_values : list bytes }.
(** operations.go:348-366 *)
Definition newUpdateRequest : getter updateRequest := fun buf =>
  let* (l, r1) := readOptionalNum 8 buf in
  let* (b, r2) := readBytes 1 r1 in
  let* (g, r3) := readOptionalNum 4 r2 in
  let* (v, r4) := readSlice 1 newLabelValue r3 in
  Ok ({| uq_last := l; uq_label := b; uq_greatest := g; uq_values := v |}, r4).
(** operations.go:368-375 *)
Definition updateRequestMarshal (x : updateRequest) : put :=
  let* b := writeBytes 1 (uq_label x) in
  let* v := writeSlice 1 labelValueMarshal (uq_values x) in
  Ok (writeOptionalNum 8 (uq_last x) ++ b ++ writeOptionalNum 4 (uq_greatest x) ++ v).

(** operations.go:377-384 *)
Record managerUpdateRequest := { mq_last : option N; mq_label : bytes; mq_greatest : option N; mq_signed : N;
  mq_values : list updateValue }.
(** operations.go:386-410 *)
Definition newManagerUpdateRequest (c : pubConfig) : getter managerUpdateRequest := fun buf =>
  let* (l, r1) := readOptionalNum 8 buf in
  let* (b, r2) := readBytes 1 r1 in
  let* (g, r3) := readOptionalNum 4 r2 in
  let* (s, r4) := readNum 4 r3 in
  let* (v, r5) := readSlice 1 (newUpdateValue c) r4 in
  Ok ({| mq_last := l; mq_label := b; mq_greatest := g; mq_signed := s; mq_values := v |}, r5).
(** operations.go:412-420 *)
Definition managerUpdateRequestMarshal (x : managerUpdateRequest) : put :=
  let* b := writeBytes 1 (mq_label x) in
  let* v := writeSlice 1 updateValueMarshal (mq_values x) in
  Ok (writeOptionalNum 8 (mq_last x) ++ b ++ writeOptionalNum 4 (mq_greatest x) ++ writeNum 4 (mq_signed x) ++ v).

(** operations.go:422-431 *)
Record updateResponse := { ur_head : fullTreeHead; ur_position : N; ur_values : list bytes; ur_info : list updateInfo;
  ur_ladder : list ladderStep; ur_update : combinedProof }.
(** operations.go:433-466 *)
Definition newUpdateResponse (c : pubConfig) : getter updateResponse := fun buf =>
  let* (h, r1) := newFullTreeHead c buf in
  let* (p, r2) := readNum 8 r1 in
  let* (v, r3) := readSlice 1 newLabelValue r2 in
  let* (i, r4) := readSlice 1 (newUpdateInfo c) r3 in
  let* (l, r5) := readSlice 1 (newLadderStep (pc_vrfSize c) (pc_hs c)) r4 in
  let* (u, r6) := newCombinedProof (pc_hs c) r5 in
  Ok ({| ur_head := h; ur_position := p; ur_values := v; ur_info := i; ur_ladder := l; ur_update := u |}, r6).
(** operations.go:468-485 *)
Definition updateResponseMarshal (x : updateResponse) : put :=
  let* h := fullTreeHeadMarshal (ur_head x) in
  let* v := writeSlice 1 labelValueMarshal (ur_values x) in
  let* i := writeSlice 1 updateInfoMarshal (ur_info x) in
  let* l := writeSlice 1 ladderStepMarshal (ur_ladder x) in
  let* u := combinedProofMarshal (ur_update x) in
  Ok (h ++ writeNum 8 (ur_position x) ++ v ++ i ++ l ++ u).

(** ** third_party.go *)

(** third_party.go:11-27 *)
Definition newPrefixEntry (hs : nat) : getter (bytes * bytes) := fun buf =>
  let* (v, r1) := readFull hs buf in
  let* (c, r2) := readFull hs r1 in
  Ok ((v, c), r2).
Definition prefixEntryMarshal (e : bytes * bytes) : put := Ok (fst e ++ snd e).

(** third_party.go:29-33 *)
Record auditorUpdate := { au_ts : N; au_added : list (bytes * bytes); au_removed : list (bytes * bytes); au_proof : pproof }.
(** third_party.go:35-62 *)
Definition newAuditorUpdate (hs : nat) : getter auditorUpdate := fun buf =>
  let* (t, r1) := readNum 8 buf in
  let* (a, r2) := readSlice 2 (newPrefixEntry hs) r1 in
  let* (d, r3) := readSlice 2 (newPrefixEntry hs) r2 in
  let* (p, r4) := newPrefixProof hs r3 in
  Ok ({| au_ts := t; au_added := a; au_removed := d; au_proof := p |}, r4).
(** third_party.go:64-75 *)
Definition auditorUpdateMarshal (x : auditorUpdate) : put :=
  let* a := writeSlice 2 prefixEntryMarshal (au_added x) in
  let* d := writeSlice 2 prefixEntryMarshal (au_removed x) in
  let* p := prefixProofMarshal (au_proof x) in
  Ok (writeNum 8 (au_ts x) ++ a ++ d ++ p).

(** ** client.go *)

(** client.go:11-31 [IndexedLogEntry] *)
Definition newIndexedLogEntry (hs : nat) : getter (N * logEntry) := fun buf =>
  let* (p, r1) := readNum 8 buf in
  let* (e, r2) := newLogEntry hs r1 in
  Ok ((p, e), r2).
Definition indexedLogEntryMarshal (x : N * logEntry) : put :=
  let* e := logEntryMarshal (snd x) in Ok (writeNum 8 (fst x) ++ e).

(** client.go:33-38.  The map [LogEntries] is an association list. *)
Record clientState := { cs_head : treeHead; cs_auditor : option auditorTreeHead; cs_subtrees : list bytes;
  cs_entries : list (N * logEntry) }.
(** client.go:63-69 *)
Fixpoint buildEntries (l : list (N * logEntry)) (acc : list (N * logEntry)) : res (list (N * logEntry)) :=
  match l with
  | [] => Ok acc
  | (p, e) :: t =>
      if mhas acc p then Fail "same log entry present multiple times" else buildEntries t (mput acc p e)
  end.
(** client.go:40-77 *)
Definition newClientState (c : pubConfig) : getter clientState := fun buf =>
  let* (th, r1) := newTreeHead buf in
  let* (ath, r2) := (if pc_mode c =? ThirdPartyAuditing
                     then (let* (a, r) := newAuditorTreeHead r1 in Ok (Some a, r)) else Ok (None, r1)) in
  let* (fs, r3) := readSlice 1 (readFull (pc_hs c)) r2 in
  let* (es, r4) := readSlice 1 (newIndexedLogEntry (pc_hs c)) r3 in
  let* m := buildEntries es [] in
  Ok ({| cs_head := th; cs_auditor := ath; cs_subtrees := fs; cs_entries := m |}, r4).
(** client.go:79-97; [order] is the order in which the map is iterated. *)
Definition clientStateMarshal (x : clientState) (order : list (N * logEntry)) : put :=
  let* h := treeHeadMarshal (cs_head x) in
  let* a := match cs_auditor x with Some ath => auditorTreeHeadMarshal ath | None => Ok [] end in
  let* f := writeSlice 1 (fun e => Ok e) (cs_subtrees x) in
  let* e := writeSlice 1 indexedLogEntryMarshal order in
  Ok (h ++ a ++ f ++ e).

(** client.go:99-103 *)
Record ownerState := { os_starting : N; os_verAt : Z; os_upcoming : list N }.
(** client.go:105-123 *)
Definition newOwnerState : getter ownerState := fun buf =>
  let* (s, r1) := readNum 8 buf in
  let* (v, r2) := readInt r1 in
  let* (u, r3) := readSlice 4 (readNum 8) r2 in
  Ok ({| os_starting := s; os_verAt := v; os_upcoming := u |}, r3).
(** client.go:125-129 *)
Definition ownerStateMarshal (x : ownerState) : put :=
  let* u := writeSlice 4 (fun t => Ok (writeNum 8 t)) (os_upcoming x) in
  Ok (writeNum 8 (os_starting x) ++ writeInt (os_verAt x) ++ u).

(** client.go:131-135 *)
Record retainedVersion := { rv_version : N; rv_vrf : bytes; rv_commitment : option bytes }.
(** client.go:137-162 *)
Definition newRetainedVersion (hs : nat) : getter retainedVersion := fun buf =>
  let* (v, r1) := readNum 4 buf in
  let* (o, r2) := readFull hs r1 in
  let* (p, r3) := readOptional r2 in
  if p then (let* (c, r4) := readFull hs r3 in Ok ({| rv_version := v; rv_vrf := o; rv_commitment := Some c |}, r4))
  else Ok ({| rv_version := v; rv_vrf := o; rv_commitment := None |}, r3).
(** client.go:164-171 *)
Definition retainedVersionMarshal (x : retainedVersion) : put :=
  Ok (writeNum 4 (rv_version x) ++ rv_vrf x ++
      match rv_commitment x with Some c => writeOptional true ++ c | None => writeOptional false end).

(** client.go:173-177 *)
Record labelState := { cl_contact : list mapEntry; cl_owner : option ownerState; cl_versions : list retainedVersion }.
(** client.go:179-200: the error of reading the versions is dropped (and the slice is nil then).  The
    rest of the buffer is not looked at by the caller; in the error case it is taken to be empty. *)
Definition newLabelState (hs : nat) : getter labelState := fun buf =>
  let* (m, r1) := readSlice 4 newMapEntry buf in
  let* (p, r2) := readOptional r1 in
  let* (o, r3) := (if p then (let* (x, r) := newOwnerState r2 in Ok (Some x, r)) else Ok (None, r2)) in
  match readSlice 4 (newRetainedVersion hs) r3 with
  | Ok (v, r4) => Ok ({| cl_contact := m; cl_owner := o; cl_versions := v |}, r4)
  | _ => Ok ({| cl_contact := m; cl_owner := o; cl_versions := [] |}, [])
  end.
(** client.go:202-210: with an owner state, the versions are not written. *)
Definition labelStateMarshal (x : labelState) : put :=
  let* m := writeSlice 4 mapEntryMarshal (cl_contact x) in
  match cl_owner x with
  | Some o => let* b := ownerStateMarshal o in Ok (m ++ writeOptional true ++ b)
  | None => let* v := writeSlice 4 retainedVersionMarshal (cl_versions x) in Ok (m ++ writeOptional false ++ v)
  end.

(** tree/transparency/client_crypto.go:232-242, end of [finish]: the state to retain, computed from the old state,
    the received tree head and the verified subtrees and entries. *)
Definition finishState (old : clientState) (fth : fullTreeHead) (subtrees : list bytes) (entries : list (N * logEntry)) : clientState :=
  {| cs_head := match fth_head fth with Some th => th | None => cs_head old end;
     cs_auditor := fth_auditor fth; cs_subtrees := subtrees; cs_entries := entries |}.

(** tree/transparency/client.go:48-65, the part of [getState] after loading [raw] *)
Definition parseState (c : pubConfig) (raw : bytes) : res clientState :=
  let* (x, r) := newClientState c raw in
  match r with [] => Ok x | _ => Fail "unexpected data appended to client state" end.

(** tree/transparency/client_crypto.go:278-292, for non-nil [raw] *)
Definition parseLabelState (hs : nat) (raw : bytes) : res labelState :=
  let* (x, r) := newLabelState hs raw in
  match r with [] => Ok x | _ => Fail "unexpected data appended to client label state" end.
