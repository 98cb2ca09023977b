(** Specification side of the data provider and the two proof handles. *)
From Coq Require Import Sorted.
From Verif Require Import Base LogMathSpec TransMathModel LogTreeModel LogTreeSpec LogChunkModel LogChunkSpec PrefixModel PrefixSpec LaddersModel CodecModel AlgModel AlgSpec HandleModel.
Open Scope N_scope.

(** Timestamps known are ordered like the entries they belong to. *)
Definition ordered (m : list (N * N)) : Prop :=
  forall x y t u, mget m x = Some t -> mget m y = Some u -> x <= y -> t <= u.

(** Whatever was known before is still known, unchanged. *)
Definition grows {V} (m m' : list (N * V)) : Prop := forall x v, mget m x = Some v -> mget m' x = Some v.

(** ** What an honest server has stored

    A log and the history of one label: the log entries, oldest first; the positions at which the versions of the label
    were published; the VRF output and the commitment of every version; and the contents of the database. *)
Record world := {
  w_entries : list logEntry;
  w_index : list N;
  w_key : N -> bytes;
  w_com : N -> bytes;
  w_entriesDb : N -> option bytes;
  w_logDb : logStore;
  w_prefixDb : store }.

Definition entryAt (W : world) (x : N) : logEntry :=
  match nth_error (w_entries W) (N.to_nat x) with Some e => e | None => {| le_ts := 0; le_root := [] |} end.

(** The same, as seen by the algorithms. *)
Definition observed (W : world) : hlog :=
  {| h_n := lenN (w_entries W);
     h_ts x := le_ts (entryAt W x);
     h_g x := (Z.of_nat (countLe x (w_index W)) - 1)%Z |}.

(** The database of [W] was filled by the code: the log entries are stored as encoded; the log tree is what appending
    their hashes one by one leaves behind; the prefix tree is what some sequence of mutations leaves behind, whose
    versions have the roots found in the log entries, and in which exactly the versions of the label published by then
    are present. *)
Definition faithful (f : bytes -> bytes) (hs : N) (W : world) : Prop :=
  okLog (observed W) /\ lenN (w_entries W) <= 2 ^ 63 /\ StronglySorted N.le (w_index W) /\
  (forall e, In e (w_entries W) -> List.length (le_root e) = N.to_nat hs) /\
  (forall x, x < lenN (w_entries W) -> exists raw, logEntryMarshal (entryAt W x) = Ok raw /\ w_entriesDb W x = Some raw) /\
  (exists leaves fs, Forall2 (fun e h => logEntryHash (full f) e = Ok h) (w_entries W) leaves /\
     foldM (fun s e => let* (fs, st) := treeAppend (full f) hs (snd s) (fst (fst s)) e in Ok (fst (fst s) + 1, fs, st)) leaves (0, [], [])
       = Ok (lenN leaves, fs, w_logDb W)) /\
  (exists vs, hist f (N.to_nat hs) (w_prefixDb W) vs /\
     forall x, x < lenN (w_entries W) -> exists m, nth_error vs (S (N.to_nat x)) = Some (m, le_root (entryAt W x)) /\
       forall v, v < 2 ^ 32 -> m (w_key W v) = if (Z.of_N v <=? h_g (observed W) x)%Z then Some (w_com W v) else None) /\
  (forall v, List.length (w_key W v) = N.to_nat hs /\ List.length (w_com W v) = N.to_nat hs) /\
  (forall v v', v < 2 ^ 32 -> v' < 2 ^ 32 -> w_key W v = w_key W v' -> v = v').

(** ** Two sides of a search

    [g x] is the greatest version of the label at entry [x].  The versions the server looks up at [x] for target [t]
    when its tracker is [tr]; and those the client expects, not knowing [g]. *)
Definition serverLadder (g : N -> Z) (t : N) (tr : tracker) (x : N) : res (list N) :=
  if (g x <? 0)%Z then Ok [0] else
  searchBinaryLadder t (toU32 (g x)) (fst (searchMaps tr x true)) (snd (searchMaps tr x true)).
Definition clientLadder (t : N) (tr : tracker) (x : N) : res (list N) :=
  searchBinaryLadder t t (fst (searchMaps tr x true)) (snd (searchMaps tr x true)).

(** The two sides inspect the entries [xs] in order, starting from the given trackers, and agree at every step. *)
Fixpoint agree (g : N -> Z) (t : N) (server client : tracker) (xs : list N) : Prop :=
  match xs with
  | [] => True
  | x :: rest => exists looked expected more,
      let answers := map (fun v => (Z.of_N v <=? g x)%Z) looked in
      serverLadder g t server x = Ok looked /\ clientLadder t client x = Ok expected /\
      expected = looked ++ more /\ looked <> [] /\
      interpretSearchLadder expected t answers = Ok (cmp3 (g x) t) /\
      agree g t (addLadder server x true (g x) looked) (addResults client x true expected answers) rest
  end.

(** A search for [t] turns right only where the greatest version is at most [t], and left only where it is greater. *)
Definition directed (g : N -> Z) (t : N) (xs : list N) : Prop :=
  forall i j y x, (i < j)%nat -> nth_error xs i = Some y -> nth_error xs j = Some x ->
    (y < x -> (g y <= Z.of_N t)%Z) /\ (x < y -> (Z.of_N t < g y)%Z).

(** ** A request and its answer

    The server runs [p] on its data, computes the VRF outputs of the versions that turn out to be needed and builds the
    proof.  [ret] are the log entries the client is known to have kept; [m] is the size of the log when it was last
    seen by the client, [nP] an additional size the proof has to cover.  The server sends the proof and, for every
    version needed, its VRF output and the commitment found, if any. *)
Definition serverSide {A} (f : bytes -> bytes) (hs : N) (W : world) (p : prog A) (ret : list (N * logEntry)) (nP m : option N)
  : res (res A * combinedProof * list (N * (bytes * option bytes))) :=
  let* d := addRetained (newDataProvider (newProduced (w_index W))) [] ret in
  let '(r, dP, _) := run (dpProvider (producedHandle hs (w_entriesDb W))) p d in
  let vers := requiredVersions (d_handle dP) in
  let* q := foldM (fun q v => qAddVersion hs q v (w_key W v)) vers (d_handle dP) in
  let* (cp, q') := dpOutput (full f) hs (w_entriesDb W) (w_logDb W) (w_prefixDb W) (withHandle dP q) (lenN (w_entries W)) nP m in
  Ok (r, cp, map (fun v => (v, (w_key W v, qCommitment q' v))) vers).

(** The client runs [p] on the proof [cp], knowing what is in [vm] about versions, and having kept the subtree hashes
    [old] and the log entries [ret]; then it finishes. *)
Definition clientSide {A} (H : bytes -> option bytes) (hs : N) (cp : combinedProof) (vm : verMap) (p : prog A)
    (old : list bytes) (ret : list (N * logEntry)) (n : N) (nP m : option N) : res (res A * proofResult) :=
  let* d := addRetained (newDataProvider {| r_ts := cp_ts cp; r_proofs := cp_proofs cp; r_roots := cp_roots cp;
                           r_incl := cp_incl cp; r_versions := vm; r_tracker := tracker0 |}) old ret in
  let '(r, dC, _) := run (dpProvider (receivedHandle H hs)) p d in
  let* pr := dpFinish H hs dC n nP m in
  Ok (r, pr).

(** The log entries kept by a client are true ones, at most one per position. *)
Definition trueEntries (W : world) (ret : list (N * logEntry)) : Prop :=
  NoDup (map fst ret) /\ forall x e, In (x, e) ret -> x < lenN (w_entries W) /\ e = entryAt W x.

(** The request [p] is answered with [r], and a client which last saw the log at the size [m] (and has kept the right
    hashes and entries) accepts the answer: its own run of [p] ends with the same result [r], it arrives at the true
    root, and keeps the right hashes and entries for the next time. *)
Definition convincing {A} (f : bytes -> bytes) (hs : N) (W : world) (p : prog A) (r : res A) (ret : list (N * logEntry))
    (m : option (N * list bytes)) (nP : option N) : Prop :=
  let n := lenN (w_entries W) in
  forall leaves root, Forall2 (fun e h => logEntryHash (full f) e = Ok h) (w_entries W) leaves -> Mth (full f) leaves root ->
  match m with Some (k, old) => 1 <= k <= n /\ FullValues (full f) leaves k old | None => True end -> optSize n nP ->
  exists cp vers, serverSide f hs W p ret nP (option_map fst m) = Ok (r, cp, vers) /\
    forall vm, (forall v k c, In (v, (k, c)) vers -> exists c', mget vm v = Some (k, c') /\ (c' = c \/ c' = Some (w_com W v))) ->
    exists pr front, clientSide (full f) hs cp vm p (match m with Some (_, old) => old | None => [] end) ret n nP (option_map fst m) = Ok (r, pr) /\
      logRoot (full f) hs n (pr_subtrees pr) = Ok root /\ FullValues (full f) leaves n (pr_subtrees pr) /\
      (match nP with Some k => FullValues (full f) leaves k (pr_additional pr) | None => pr_additional pr = [] end) /\
      frontier n = Ok front /\ pr_entries pr = map (fun x => (x, entryAt W x)) front.

(** What a client that last saw the log at the size [m] keeps: (at least) the entries on the frontier of that size. *)
Definition keeps (W : world) (m : option N) (ret : list (N * logEntry)) : Prop :=
  trueEntries W ret /\
  match m with
  | Some k => forall front x, frontier k = Ok front -> In x front -> In x (map fst ret)
  | None => True
  end.

(** [updateView] fetches every entry of the frontier of the size [n] that is not on the frontier of [m]. *)
Definition advances (n : N) (m : option N) : Prop :=
  match m with
  | Some k => k = n \/ forall front, frontier n = Ok front -> ~ In (k - 1) front
  | None => True
  end.

(** The versions an update has to prove in addition to those of its ladder. *)
Definition additionalOf (os : ownerState) (versions : Z) : list N :=
  let startVer := toU32 (greatestVersion os + 1) in
  let endVer := toU32 (greatestVersion os + versions) in
  match searchBinaryLadder endVer endVer [] [] with
  | Ok ladder => filter (fun v => negb (mem32 v ladder)) (nseq startVer (Z.to_nat (Z.of_N endVer - Z.of_N startVer + 1)))
  | _ => []
  end.

(** What the program answers when every question is answered honestly. *)
Definition honestAnswer {A} (W : world) (p : prog A) : res A := fst (fst (run (honest (observed W)) p 0)).
