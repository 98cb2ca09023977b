(** Model of tree/transparency/algorithms/data_provider.go and proof_handle.go: the data provider, over the handle of a
    server building a proof and over the handle of a client evaluating one. *)
From Verif Require Import Base LogMathModel LogTreeModel LogChunkModel TransMathModel LaddersModel PrefixModel CodecModel AlgModel.
Local Open Scope string_scope.
Open Scope N_scope.

(** proof_handle.go:32-74, the interface.  [Finish] and [Output] are not part of it here: each is implemented by one of
    the handles only (the other panics with "unreachable"), see [dpFinish] and [dpOutput]. *)
Record handleIf (S : Type) := {
  hTs : S -> N -> res N * S;
  hLadder : S -> N -> N -> bool -> res (bytes * Z) * S;
  hMon : S -> N -> N -> res bytes * S;
  hIncl : S -> N -> list N -> res bytes * S;
  hRoots : S -> list N -> res (list bytes) * S;
  hStop : S -> N -> Z -> bool;
  hTrack : S -> N -> bool -> Z -> list N -> S }.
Arguments hTs {S}. Arguments hLadder {S}. Arguments hMon {S}. Arguments hIncl {S}. Arguments hRoots {S}. Arguments hStop {S}. Arguments hTrack {S}.

(** data_provider.go:28-38.  Go visits the map in arbitrary order, so which of the two errors is reported if both
    apply is not determined there. *)
Definition addTimestamp (collection : list (N * N)) (pos1 ts1 : N) : res (list (N * N)) :=
  if mhas collection pos1 then Fail "can not insert same timestamp multiple times" else
  if existsb (fun e => (pos1 <? fst e) && (snd e <? ts1) || (fst e <? pos1) && (ts1 <? snd e)) collection
  then Fail "timestamps are not monotonic" else
  Ok (mput collection pos1 ts1).

(** data_provider.go:40-48 *)
Definition addPrefixTree (collection : list (N * bytes)) (pos : N) (root : bytes) : res (list (N * bytes)) :=
  match mget collection pos with
  | Some existing => if bytes_eqb root existing then Ok collection else Fail "conflicting values for prefix tree root hash found"
  | None => Ok (mput collection pos root)
  end.

(** data_provider.go:53-62 *)
Record dataProvider (S : Type) := {
  d_handle : S;
  d_subtrees : list bytes;
  d_retained : list (N * logEntry);
  d_ts : list (N * N);
  d_roots : list (N * bytes) }.
Arguments d_handle {S}. Arguments d_subtrees {S}. Arguments d_retained {S}. Arguments d_ts {S}. Arguments d_roots {S}.

(** data_provider.go:64-72 *)
Definition newDataProvider {S} (h : S) : dataProvider S :=
  {| d_handle := h; d_subtrees := []; d_retained := []; d_ts := []; d_roots := [] |}.

Definition withHandle {S} (d : dataProvider S) (h : S) : dataProvider S :=
  {| d_handle := h; d_subtrees := d_subtrees d; d_retained := d_retained d; d_ts := d_ts d; d_roots := d_roots d |}.
Definition withTs {S} (d : dataProvider S) (ts : list (N * N)) : dataProvider S :=
  {| d_handle := d_handle d; d_subtrees := d_subtrees d; d_retained := d_retained d; d_ts := ts; d_roots := d_roots d |}.
Definition withRoots {S} (d : dataProvider S) (rs : list (N * bytes)) : dataProvider S :=
  {| d_handle := d_handle d; d_subtrees := d_subtrees d; d_retained := d_retained d; d_ts := d_ts d; d_roots := rs |}.

(** data_provider.go:74-87.  [logEntries] lists the entries of the map in the order in which Go visits them. *)
Definition addRetained {S} (d : dataProvider S) (fullSubtrees : list bytes) (logEntries : list (N * logEntry)) : res (dataProvider S) :=
  let d0 := {| d_handle := d_handle d; d_subtrees := fullSubtrees; d_retained := logEntries; d_ts := d_ts d; d_roots := d_roots d |} in
  foldM (fun d e =>
    let* ts := addTimestamp (d_ts d) (fst e) (le_ts (snd e)) in
    let* rs := addPrefixTree (d_roots d) (fst e) (le_root (snd e)) in
    Ok (withRoots (withTs d ts) rs)) logEntries d0.

Section Provider.
Context {S : Type}.
Variable hd : handleIf S.

(** data_provider.go:89-100 *)
Definition dpTs (d : dataProvider S) (x : N) : res N * dataProvider S :=
  match mget (d_ts d) x with
  | Some ts => (Ok ts, d)
  | None =>
      let (r, h) := hTs hd (d_handle d) x in
      let d1 := withHandle d h in
      match r with
      | Ok ts => match addTimestamp (d_ts d1) x ts with
                 | Ok m => (Ok ts, withTs d1 m)
                 | Fail e => (Fail e, d1) | Panic e => (Panic e, d1) | Fuel => (Fuel, d1)
                 end
      | Fail e => (Fail e, d1) | Panic e => (Panic e, d1) | Fuel => (Fuel, d1)
      end
  end.

(** The rest of data_provider.go:102-138: after the timestamp, the root is taken from the handle's answer and added. *)
Definition dpRoot {A} (d : dataProvider S) (x : N) (r : res (bytes * A)) (h : S) : res A * dataProvider S :=
  let d1 := withHandle d h in
  match r with
  | Ok (root, a) => match addPrefixTree (d_roots d1) x root with
                    | Ok m => (Ok a, withRoots d1 m)
                    | Fail e => (Fail e, d1) | Panic e => (Panic e, d1) | Fuel => (Fuel, d1)
                    end
  | Fail e => (Fail e, d1) | Panic e => (Panic e, d1) | Fuel => (Fuel, d1)
  end.

(** data_provider.go:102-113 *)
Definition dpLadder (d : dataProvider S) (x ver : N) (omit : bool) : res Z * dataProvider S :=
  let (t, d1) := dpTs d x in
  match t with
  | Ok _ => let (r, h) := hLadder hd (d_handle d1) x ver omit in dpRoot d1 x r h
  | Fail e => (Fail e, d1) | Panic e => (Panic e, d1) | Fuel => (Fuel, d1)
  end.

Definition noResult (r : res bytes) : res (bytes * unit) := let* b := r in Ok (b, tt).

(** data_provider.go:115-124 *)
Definition dpMon (d : dataProvider S) (x ver : N) : res unit * dataProvider S :=
  let (t, d1) := dpTs d x in
  match t with
  | Ok _ => let (r, h) := hMon hd (d_handle d1) x ver in dpRoot d1 x (noResult r) h
  | Fail e => (Fail e, d1) | Panic e => (Panic e, d1) | Fuel => (Fuel, d1)
  end.

(** data_provider.go:126-138 *)
Definition dpIncl (d : dataProvider S) (x : N) (vers : list N) : res unit * dataProvider S :=
  match vers with
  | [] => (Ok tt, d)
  | _ =>
      let (t, d1) := dpTs d x in
      match t with
      | Ok _ => let (r, h) := hIncl hd (d_handle d1) x vers in dpRoot d1 x (noResult r) h
      | Fail e => (Fail e, d1) | Panic e => (Panic e, d1) | Fuel => (Fuel, d1)
      end
  end.

(** The provider the algorithms run against. *)
Definition dpProvider : provider (dataProvider S) := {|
  pTs := dpTs; pLadder := dpLadder; pMon := dpMon; pIncl := dpIncl;
  pStop d x v := hStop hd (d_handle d) x v;
  pTrack d x o g l := withHandle d (hTrack hd (d_handle d) x o g l) |}.

(** data_provider.go:171-177: the roots handed out, in order, to the entries that have none. *)
Fixpoint fillRoots (rs : list (N * bytes)) (xs : list N) (new : list bytes) : list (N * bytes) :=
  match xs, new with
  | x :: xs', r :: new' => fillRoots (mput rs x r) xs' new'
  | _, _ => rs
  end.

(** data_provider.go:140-180.  The positions of the entries inspected, and the provider with all their roots known.
    ([d_roots] has no empty roots, so that absence from the map is Go's [nil].) *)
Definition inspectedLeaves (d : dataProvider S) : res (list N) * dataProvider S :=
  let leaves := nsort (filter (fun x => negb (mhas (d_retained d) x)) (map fst (d_ts d))) in
  let empty := filter (fun x => negb (mhas (d_roots d) x)) leaves in
  let (r, h) := hRoots hd (d_handle d) empty in
  let d1 := withHandle d h in
  match r with
  | Ok prefixTrees =>
      if negb (List.length prefixTrees =? List.length empty)%nat
      then (Fail "unexpected number of prefix tree root hashes returned", d1)
      else (Ok leaves, withRoots d1 (fillRoots (d_roots d1) empty prefixTrees))
  | Fail e => (Fail e, d1) | Panic e => (Panic e, d1) | Fuel => (Fuel, d1)
  end.

End Provider.

(** ** Versions of the label known to a handle: VRF output and, perhaps, commitment *)

Definition verMap : Type := list (N * (bytes * option bytes)).

(** proof_handle.go:16-30 *)
Definition addVersion (hs : N) (versions : verMap) (ver : N) (vrfOutput : bytes) (commitment : option bytes) : res verMap :=
  if negb (lenN vrfOutput =? hs) then Fail "malformed vrf output" else
  if (match commitment with Some c => negb (lenN c =? hs) | None => false end) then Fail "malformed commitment" else
  if mhas versions ver then Fail "can not add the same version twice" else
  Ok (mput versions ver (vrfOutput, commitment)).

(** ** The receiving side *)

(** proof_handle.go:78-84; the fields of the proof are consumed *)
Record received := {
  r_ts : list N; r_proofs : list pproof; r_roots : list bytes; r_incl : list bytes;
  r_versions : verMap; r_tracker : tracker }.

(** proof_handle.go:86-93 *)
Definition newReceived (inner : combinedProof) : received :=
  {| r_ts := cp_ts inner; r_proofs := cp_proofs inner; r_roots := cp_roots inner; r_incl := cp_incl inner;
     r_versions := []; r_tracker := tracker0 |}.

Section Hash.
Variable H : bytes -> option bytes.
Variable hs : N.

(** proof_handle.go:106-113 *)
Definition rTs (r : received) (x : N) : res N * received :=
  match r_ts r with
  | [] => (Fail "unexpected number of timestamps consumed", r)
  | t :: rest => (Ok t, {| r_ts := rest; r_proofs := r_proofs r; r_roots := r_roots r; r_incl := r_incl r;
                           r_versions := r_versions r; r_tracker := r_tracker r |})
  end.

(** proof_handle.go:132-141 (and 185-193, 219-227, where every result shows inclusion): the entries for the versions
    looked up.  An absent commitment is [nil], the empty slice. *)
Fixpoint lookupEntries (versions : verMap) (vers : list N) (inclusion : list bool) : res (list entry) :=
  match vers, inclusion with
  | v :: vers', i :: inclusion' =>
      match mget versions v with
      | None => Fail "required version not known"
      | Some (vrf, com) =>
          if i && (match com with None => true | Some _ => false end) then Fail "commitment not known for required version" else
          let* rest := lookupEntries versions vers' inclusion' in
          Ok ((vrf, match com with Some c => c | None => [] end) :: rest)
      end
  | _, _ => Ok []
  end.

Definition popProof (r : received) (rest : list pproof) (tr : tracker) : received :=
  {| r_ts := r_ts r; r_proofs := rest; r_roots := r_roots r; r_incl := r_incl r; r_versions := r_versions r; r_tracker := tr |}.

(** Errors leave the handle as it was. *)
Definition keeping {A} (r : received) (a : res (A * received)) : res A * received :=
  match a with Ok (x, r') => (Ok x, r') | Fail e => (Fail e, r) | Panic e => (Panic e, r) | Fuel => (Fuel, r) end.

(** proof_handle.go:115-152.  [ladder[i]] is in range: [InterpretSearchLadder] refuses more results than steps. *)
Definition rLadder (r : received) (x ver : N) (omit : bool) : res (bytes * Z) * received := keeping r (
  match r_proofs r with
  | [] => Fail "unexpected number of prefix proofs consumed"
  | proof :: rest =>
      let (leftInclusion, rightNonInclusion) := searchMaps (r_tracker r) x omit in
      let* ladder := searchBinaryLadder ver ver leftInclusion rightNonInclusion in
      let results := map rincl (p_results proof) in
      let* res := interpretSearchLadder ladder ver results in
      let* entries := lookupEntries (r_versions r) ladder results in
      let* root := Evaluate H (N.to_nat hs) entries proof in
      Ok ((root, res), popProof r rest (addResults (r_tracker r) x omit ladder results))
  end).

(** proof_handle.go:154-191 *)
Definition rMon (r : received) (x ver : N) : res bytes * received := keeping r (
  match r_proofs r with
  | [] => Fail "unexpected number of prefix proofs consumed"
  | proof :: rest =>
      let* ladder := monitoringBinaryLadder ver in
      if negb (List.length (p_results proof) =? List.length ladder)%nat then Fail "unexpected number of results present in prefix proof" else
      if negb (forallb rincl (p_results proof)) then Fail "unexpected non-inclusion proof provided" else
      let* entries := lookupEntries (r_versions r) ladder (map (fun _ => true) ladder) in
      let* root := Evaluate H (N.to_nat hs) entries proof in
      Ok (root, popProof r rest (r_tracker r))
  end).

(** proof_handle.go:193-225 *)
Definition rIncl (r : received) (x : N) (vers : list N) : res bytes * received := keeping r (
  match r_proofs r with
  | [] => Fail "unexpected number of prefix proofs consumed"
  | proof :: rest =>
      if negb (List.length (p_results proof) =? 1)%nat then Fail "unexpected number of results present in prefix proof" else
      if negb (forallb rincl (p_results proof)) then Fail "unexpected non-inclusion proof provided" else
      let* entries := lookupEntries (r_versions r) vers (map (fun _ => true) vers) in
      let* root := Evaluate H (N.to_nat hs) entries proof in
      Ok (root, popProof r rest (r_tracker r))
  end).

(** proof_handle.go:227-234 *)
Definition rRoots (r : received) (xs : list N) : res (list bytes) * received :=
  if negb (List.length xs =? List.length (r_roots r))%nat then (Fail "unexpected number of prefix tree roots requested", r) else
  (Ok (r_roots r), {| r_ts := r_ts r; r_proofs := r_proofs r; r_roots := []; r_incl := r_incl r;
                      r_versions := r_versions r; r_tracker := r_tracker r |}).

(** proof_handle.go:236-245 *)
Definition rFinish (r : received) : res (list bytes) :=
  match r_ts r, r_proofs r, r_roots r with
  | [], [], [] => Ok (r_incl r)
  | [], [], _ => Fail "unexpected additional prefix roots found"
  | [], _, _ => Fail "unexpected additional prefix proofs found"
  | _, _, _ => Fail "unexpected additional timestamps found"
  end.

(** proof_handle.go:251-257 and 267 (with tracker.go:33-48) *)
Definition receivedHandle : handleIf received := {|
  hTs := rTs; hLadder := rLadder; hMon := rMon; hIncl := rIncl; hRoots := rRoots;
  hStop r _ _ := match r_proofs r with [] => true | _ => false end;
  hTrack r x o g l := popProof r (r_proofs r) (addLadder (r_tracker r) x o g l) |}.

(** structs/crypto.go:123-131 *)
Definition logEntryHash (e : logEntry) : res bytes :=
  let* raw := logEntryMarshal e in
  match H raw with Some h => Ok h | None => Fail "hash input outside the table" end.

Definition getOr {A} (msg : string) (o : option A) : res A := match o with Some a => Ok a | None => Fail msg end.

(** data_provider.go:182-186 *)
Record proofResult := { pr_subtrees : list bytes; pr_additional : list bytes; pr_entries : list (N * logEntry) }.

(** data_provider.go:188-240.  [m] is the previous tree size; the retained subtrees are the provider's. *)
Definition dpFinish (d : dataProvider received) (n : N) (nP m : option N) : res proofResult :=
  match inspectedLeaves receivedHandle d with
  | (Ok positions, d1) =>
      let* values := mapM (fun x =>
        let* ts := getOr "unreachable" (mget (d_ts d1) x) in
        let* root := getOr "unreachable" (mget (d_roots d1) x) in
        logEntryHash {| le_ts := ts; le_root := root |}) positions in
      let* proof := rFinish (d_handle d1) in
      let* (subtrees, additional) :=
        verifyBatch H hs (option_map (fun k => (k, d_subtrees d1)) m) positions n nP values proof in
      let* front := frontier n in
      let* entries := mapM (fun x =>
        let* ts := getOr "expected timestamp not retained" (mget (d_ts d1) x) in
        let* root := getOr "expected prefix tree root not retained" (mget (d_roots d1) x) in
        Ok (x, {| le_ts := ts; le_root := root |})) front in
      Ok {| pr_subtrees := subtrees; pr_additional := additional; pr_entries := entries |}
  | (Fail e, _) => Fail e
  | (Panic e, _) => Panic e
  | (Fuel, _) => Fuel
  end.

(** ** The producing side *)

(** proof_handle.go:266-278.  The transaction is the table of stored log entries, the log chunks and the prefix tiles; the
    cache of parsed log entries ([logEntries]) has no effect and is left out. *)
Record produced := {
  q_index : list N;
  q_versions : verMap; q_tracker : tracker;
  q_ts : list N; q_proofs : list (N * list N); q_roots : list bytes }.

(** proof_handle.go:280-293 *)
Definition newProduced (index : list N) : produced :=
  {| q_index := index; q_versions := []; q_tracker := tracker0; q_ts := []; q_proofs := []; q_roots := [] |}.

(** proof_handle.go:297-307 *)
Definition requiredVersions (q : produced) : list N := nodup N.eq_dec (flat_map snd (q_proofs q)).

Variable entriesDb : N -> option bytes.
Variable logDb : logStore.
Variable prefixDb : store.

(** proof_handle.go:323-326.  [slices.BinarySearch] is [bsearch]. *)
Definition greatestAt (q : produced) (x : N) : res Z :=
  let* idx := bsearch (q_index q) (add64 x 1) in Ok (Z.of_nat idx - 1)%Z.

(** proof_handle.go:328-352 *)
Definition getLogEntry (x : N) : res logEntry :=
  match entriesDb x with
  | None => Fail "requested log entry not found"
  | Some raw =>
      let* (e, rest) := newLogEntry (N.to_nat hs) raw in
      match rest with [] => Ok e | _ => Fail "unexpected data appended to log entry" end
  end.

Definition qPush (q : produced) (x : N) (vers : list N) (tr : tracker) : produced :=
  {| q_index := q_index q; q_versions := q_versions q; q_tracker := tr; q_ts := q_ts q;
     q_proofs := (q_proofs q ++ [(x, vers)])%list; q_roots := q_roots q |}.

Definition keepingQ {A} (q : produced) (a : res (A * produced)) : res A * produced :=
  match a with Ok (x, r') => (Ok x, r') | Fail e => (Fail e, q) | Panic e => (Panic e, q) | Fuel => (Fuel, q) end.

(** proof_handle.go:354-361 *)
Definition qTs (q : produced) (x : N) : res N * produced := keepingQ q (
  let* e := getLogEntry x in
  Ok (le_ts e, {| q_index := q_index q; q_versions := q_versions q; q_tracker := q_tracker q; q_ts := (q_ts q ++ [le_ts e])%list;
                  q_proofs := q_proofs q; q_roots := q_roots q |})).

(** proof_handle.go:363-390 *)
Definition qLadder (q : produced) (x ver : N) (omit : bool) : res (bytes * Z) * produced := keepingQ q (
  let* greatest := greatestAt q x in
  let* ladder :=
    (if (greatest <? 0)%Z then Ok [0] else
     let (leftInclusion, rightNonInclusion) := searchMaps (q_tracker q) x omit in
     searchBinaryLadder ver (toU32 greatest) leftInclusion rightNonInclusion) in
  let* e := getLogEntry x in
  let res := if (greatest <? Z.of_N ver)%Z then (-1)%Z else if (Z.of_N ver <? greatest)%Z then 1%Z else 0%Z in
  Ok ((le_root e, res), qPush q x ladder (addLadder (q_tracker q) x omit greatest ladder))).

(** proof_handle.go:392-400 *)
Definition qMon (q : produced) (x ver : N) : res bytes * produced := keepingQ q (
  let* e := getLogEntry x in
  let* ladder := monitoringBinaryLadder ver in
  Ok (le_root e, qPush q x ladder (q_tracker q))).

(** proof_handle.go:402-409 *)
Definition qIncl (q : produced) (x : N) (vers : list N) : res bytes * produced := keepingQ q (
  let* e := getLogEntry x in Ok (le_root e, qPush q x vers (q_tracker q))).

(** proof_handle.go:411-422 *)
Definition qRoots (q : produced) (xs : list N) : res (list bytes) * produced := keepingQ q (
  let* roots := mapM (fun x => let* e := getLogEntry x in Ok (le_root e)) xs in
  Ok (roots, {| q_index := q_index q; q_versions := q_versions q; q_tracker := q_tracker q; q_ts := q_ts q;
                q_proofs := q_proofs q; q_roots := roots |})).

(** proof_handle.go:483-485 *)
Definition qStop (q : produced) (x : N) (ver : Z) : bool :=
  (25 <=? List.length (q_proofs q))%nat || (match greatestAt q x with Ok g => (ver <? g)%Z | _ => false end).

Definition producedHandle : handleIf produced := {|
  hTs := qTs; hLadder := qLadder; hMon := qMon; hIncl := qIncl; hRoots := qRoots; hStop := qStop;
  hTrack q x o g l :=
    {| q_index := q_index q; q_versions := q_versions q; q_tracker := addLadder (q_tracker q) x o g l; q_ts := q_ts q;
       q_proofs := q_proofs q; q_roots := q_roots q |} |}.

(** proof_handle.go:311-313 *)
Definition qAddVersion (q : produced) (ver : N) (vrfOutput : bytes) : res produced :=
  let* vm := addVersion hs (q_versions q) ver vrfOutput None in
  Ok {| q_index := q_index q; q_versions := vm; q_tracker := q_tracker q; q_ts := q_ts q; q_proofs := q_proofs q; q_roots := q_roots q |}.

(** proof_handle.go:317-319 *)
Definition qCommitment (q : produced) (ver : N) : option bytes :=
  match mget (q_versions q) ver with Some (_, c) => c | None => None end.

(** proof_handle.go:449-467: commitments found are stored with the version, and compared if seen before *)
Fixpoint noteCommitments (vm : verMap) (vers : list N) (coms : list (option bytes)) : res verMap :=
  match vers, coms with
  | v :: vers', None :: coms' => noteCommitments vm vers' coms'
  | v :: vers', Some c :: coms' =>
      match mget vm v with
      | Some (vrf, Some c') => if bytes_eqb c c' then noteCommitments vm vers' coms' else Fail "different values for same commitment found"
      | Some (vrf, None) => noteCommitments (mput vm v (vrf, Some c)) vers' coms'
      | None => noteCommitments (mput vm v ([], Some c)) vers' coms'
      end
  | _, _ => Ok vm
  end.

(** proof_handle.go:428-481; the searches are executed one after the other (each only reads).  The handle with the
    commitments found is returned too. *)
Definition qOutput (q : produced) (leaves : list N) (n : N) (nP m : option N) : res (combinedProof * produced) :=
  let* searches := mapM (fun '(pos, vers) =>
    let* outs := mapM (fun v => let* e := getOr "required version not known" (mget (q_versions q) v) in Ok (fst e)) vers in
    Ok (add64 pos 1, outs)) (q_proofs q) in
  let* results := mapM (fun '(v, keys) => search H (N.to_nat hs) prefixDb v keys) searches in
  let* vm := foldM (fun vm x => noteCommitments vm (snd (fst x)) (snd (snd x)))
               (combine (q_proofs q) results) (q_versions q) in
  let* inclusion := getBatch H hs logDb leaves n nP m in
  Ok ({| cp_ts := q_ts q; cp_proofs := map fst results; cp_roots := q_roots q; cp_incl := inclusion |},
      {| q_index := q_index q; q_versions := vm; q_tracker := q_tracker q; q_ts := q_ts q; q_proofs := q_proofs q; q_roots := q_roots q |}).

(** data_provider.go:242-255 *)
Definition dpOutput (d : dataProvider produced) (n : N) (nP m : option N) : res (combinedProof * produced) :=
  match inspectedLeaves producedHandle d with
  | (Ok positions, d1) => qOutput (d_handle d1) positions n nP m
  | (Fail e, _) => Fail e
  | (Panic e, _) => Panic e
  | (Fuel, _) => Fuel
  end.
End Hash.
