(** C37-C39: the LevelDB-backed store (db/leveldb.go) and the encoding of label indices.

    [specStore] and [specRun] (StoreSpec.v) are what a user expects: a map from objects to values with pending and
    durable contents.  [onDisk d] and [shown c] are what a database and a connection hold, per object. *)
From Coq Require Import Sorted.
From Verif Require Import Base PrefixModel StoreModel StoreSpec StoreProofs.
Open Scope N_scope.

(** C37. A non-empty list of 64-bit positions is stored under the label if it is non-decreasing, and then read back
    unchanged, while the indices of other labels stay what they are; any other non-empty list is refused.  A label
    without index reads as the empty list. *)
Theorem C37_index_roundtrip : forall c label index,
  Forall (fun x => x < 2 ^ 64) index -> index <> [] -> c_readonly c = false ->
  (StronglySorted N.le index /\ exists c', putIndex c label index = Ok c' /\
     batchGetIndex c' [label] = Ok [index] /\
     forall other, other <> label -> batchGetIndex c' [other] = batchGetIndex c [other]) \/
  (~ StronglySorted N.le index /\ exists msg, putIndex c label index = Fail msg).
Proof. exact index_roundtrip. Qed.
Print Assumptions C37_index_roundtrip.

Theorem C37_missing_index : forall c label, shown c (OIndex label) = None -> batchGetIndex c [label] = Ok [[]].
Proof. exact index_missing. Qed.
Print Assumptions C37_missing_index.

(** Labels "a" and "b"; positions up to 2^64 - 1. *)
Example C37_example :
  let c := newLDBConn [] false in
  (exists c', putIndex c (str "a") [0; 0; 300; 18446744073709551615] = Ok c' /\
     batchGetIndex c' [str "b"; str "a"] = Ok [[]; [0; 0; 300; 18446744073709551615]]) /\
  putIndex c (str "a") [3; 2] = Fail "list of label-version positions is not monotonic" /\
  putIndex c (str "a") [] = Fail "leveldb: can not store nil value".
Proof. cbv zeta. split; [eexists; split; vm_compute; reflexivity|split; vm_compute; reflexivity]. Qed.

(** C38. Different objects have different database keys, for all labels, versions, positions and tile ids. *)
Theorem C38_keys_distinct : forall o o', dbKey o = dbKey o' -> o = o'.
Proof. exact dbKey_inj. Qed.
Print Assumptions C38_keys_distinct.

(** Keys that look alike: a log entry and the tree head both start with "t"; the label "12" has the hex form 3132. *)
Example C38_example :
  dbKey (OVersion (str "12") 18) = str "v3132:12" /\ dbKey (OIndex (str "12")) = str "i3132" /\
  dbKey (OEntry 1234567890) = str "t1234567890" /\ dbKey (OTile (300, 17)) = str "p12c:11" /\ dbKey OTreeHead = str "tree-head".
Proof. repeat split; vm_compute; reflexivity. Qed.

(** C39. For every database and every sequence of reads, writes, deletes, commits, reopenings and reads on clones, the
    answers are those of the specification: a read returns the latest write or delete since the database was opened,
    or else the durable value; commit makes exactly the pending contents durable; reopening shows the durable
    contents.  The same holds of the contents afterwards. *)
Theorem C39_reads_and_commits : forall d ops, Forall proper ops ->
  let s := {| s_pending := onDisk d; s_durable := onDisk d |} in
  exists c', runStore (newLDBConn d false) ops = Ok (fst (specRun s ops), c') /\
    (forall o, shown c' o = s_pending (snd (specRun s ops)) o) /\
    (forall o, onDisk (c_conn c') o = s_durable (snd (specRun s ops)) o).
Proof.
  exact (fun d ops F => match store_refines ops _ _ (related_open d) F with
                        | ex_intro _ c' (conj E (conj _ (conj _ R))) => ex_intro _ c' (conj E R) end).
Qed.
Print Assumptions C39_reads_and_commits.

(** A write is seen at once, but is lost when the database is reopened before the commit; a clone does not see it. *)
Example C39_example :
  let ops := [SWrite (WEntry 3 (Some [x07])); SRead (REntries [3; 4]); SCommit; SWrite (WTreeHead (Some [x01])); SDelete (DEntry 3);
              SRead (REntries [3; 4]); SRead RTreeHead; SClone [REntries [3]; RTreeHead]; SReopen; SRead (REntries [3; 4]); SRead RTreeHead] in
  Forall proper ops /\
  exists c, runStore (newLDBConn [] false) ops =
    Ok ([ANums [(3, [x07])]; ANums []; AHeads (Some [x01]) None; ANums [(3, [x07])]; AHeads None None; ANums [(3, [x07])]; AHeads None None], c).
Proof.
  cbv zeta. split; [repeat constructor; discriminate|]. eexists. vm_compute. reflexivity.
Qed.

(** The restriction to proper calls matters: a tree head deleted by writing nil reads as absent before the commit, but
    as an empty value after it.  (The code never does this: an encoded tree head has at least ten bytes.) *)
Example C39_nil_tree_head :
  exists c, runStore (newLDBConn [] false) [SWrite (WTreeHead None); SRead RTreeHead; SCommit; SRead RTreeHead] =
    Ok ([AHeads None None; AHeads (Some []) None], c).
Proof. eexists. vm_compute. reflexivity. Qed.

(** C40, what a crash can do to the database: after a crash at any point of a commit it holds the contents before it,
    the contents after it, or the contents after it with the tree head before it.  So C40 holds for commits that do
    not change the tree head (those that store an auditor's tree head).  Missing: in the third case the tree head does
    not agree with the rest of the contents, see C40_crash_refuted in MutateProperties.v. *)
Theorem C40_crash_partial : forall c d,
  (forall v, bget (c_batch c) (dbKey OTreeHead) = Some v -> v <> None) -> In d (crashStates c) ->
  (forall o, onDisk d o = onDisk (c_conn c) o) \/ (forall o, onDisk d o = shown c o) \/
  (onDisk d OTreeHead = onDisk (c_conn c) OTreeHead /\ forall o, o <> OTreeHead -> onDisk d o = shown c o).
Proof. exact crash_states. Qed.
Print Assumptions C40_crash_partial.

(** The third case: three different states for one commit. *)
Example C40_example :
  exists c, runStore (newLDBConn [] false) [SWrite (WTreeHead (Some [x01])); SWrite (WEntry 0 (Some [x02]))] = Ok ([], c) /\
    map (fun d => (onDisk d OTreeHead, onDisk d (OEntry 0))) (crashStates c) =
    [(None, None); (None, Some [x02]); (Some [x01], Some [x02])].
Proof. eexists. split; vm_compute; reflexivity. Qed.
