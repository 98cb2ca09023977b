(** C84-C85: the in-memory store (db/memory/memory.go).

    [sharedRun] (MemorySpec.v) is what it does in terms of objects: one map shared by the store and its clones, and tree
    heads kept by each of them.  [specRun] (StoreSpec.v) is the specification of the durable store. *)
From Verif Require Import Base PrefixModel StoreModel StoreSpec MemoryModel MemorySpec MemoryProofs.
Open Scope N_scope.

(** C84. For every history of reads, writes, deletions, commits and clones, through any number of stores, no call fails and
    each read returns the latest value written, by whichever store, for exactly the objects asked for; tree heads are those
    written through the store that reads. *)
Theorem C84_memory_answers : forall ops, wellUsed 1 ops ->
  exists w, runMem newMemory ops = Ok (fst (sharedRun emptyShared ops), w).
Proof. exact memory_answers. Qed.
Print Assumptions C84_memory_answers.

(** Versions 1 and 11 of the labels "" and "1"; the tile (1, 17) and the tile (17, 1). *)
Example C84_example :
  let ops := [MWrite 0 (WVersion [] 11 (Some [x01])); MWrite 0 (WVersion [x31] 1 (Some [x02])); MWrite 0 (WTile (1, 17) (Some [x03]));
              MClone 0; MRead 1 (RVersion [] 11); MRead 1 (RVersion [] 1); MRead 1 (RTiles [(17, 1); (1, 17)]);
              MDelete 0 (DVersion [] 11); MRead 1 (RVersion [] 11); MRead 0 (RVersion [x31] 1)] in
  wellUsed 1 ops /\
  exists w, runMem newMemory ops = Ok ([AOne (Some [x01]); AOne None; ATiles [((1, 17), [x03])]; AOne None; AOne (Some [x02])], w).
Proof. cbv zeta. split; [repeat split; cbn; try lia; discriminate|]. eexists. vm_compute. reflexivity. Qed.

(** Used without clones and by one process, it gives the same answers as the LevelDB-backed store: what is tested over the
    one holds over the other.  The condition: no auditor's tree head is stored before the first tree head. *)
Theorem C84_same_as_leveldb : forall ops, Forall proper ops -> Forall plain ops -> headFirst ops ->
  exists answers w c, runMem newMemory (map onFirst ops) = Ok (answers, w) /\ runStore (newLDBConn [] false) ops = Ok (answers, c).
Proof. exact same_answers. Qed.
Print Assumptions C84_same_as_leveldb.

Example C84_same_example :
  let ops := [SWrite (WEntry 3 (Some [x07])); SWrite (WTreeHead (Some [x01])); SWrite (WAuditorHead (Some [x09])); SCommit; SRead RTreeHead; SDelete (DEntry 3);
              SRead (REntries [3; 4]); SWrite (WIndex [x10] (Some [])); SRead (RIndices [[x10]; [x01; x00]])] in
  Forall proper ops /\ Forall plain ops /\ headFirst ops /\
  exists w, runMem newMemory (map onFirst ops) = Ok ([AHeads (Some [x01]) (Some [x09]); ANums []; AList [Some []; None]], w).
Proof. cbv zeta. split; [repeat constructor; discriminate|]. split; [repeat constructor|]. split; [exact I|]. eexists. vm_compute. reflexivity. Qed.

(** The condition matters: LevelDB shows no auditor's tree head without a tree head, the in-memory store does. *)
Example C84_auditor_first :
  let ops := [SWrite (WAuditorHead (Some [x09])); SRead RTreeHead] in
  (exists w, runMem newMemory (map onFirst ops) = Ok ([AHeads None (Some [x09])], w)) /\
  (exists c, runStore (newLDBConn [] false) ops = Ok ([AHeads None None], c)).
Proof. split; eexists; vm_compute; reflexivity. Qed.

(** C85. A clone should be a read-only view of what has been committed.  It is not: a clone sees what the store writes
    later, though it is not committed, together with the old tree head; and what is written through a clone is seen by the
    store. *)
Theorem C85_clone_view_refuted : exists w w' w'',
  runMem newMemory [MWrite 0 (WTreeHead (Some [x01])); MWrite 0 (WEntry 0 (Some [x0a])); MCommit 0; MClone 0;
                    MWrite 0 (WTreeHead (Some [x02])); MWrite 0 (WEntry 0 (Some [x0b]))] = Ok ([], w) /\
  runMem w [MRead 1 RTreeHead; MRead 1 (REntries [0])] = Ok ([AHeads (Some [x01]) None; ANums [(0, [x0b])]], w') /\
  runMem w [MWrite 1 (WEntry 0 (Some [x0c])); MRead 0 (REntries [0])] = Ok ([ANums [(0, [x0c])]], w'').
Proof. do 3 eexists. split; [vm_compute; reflexivity|]. split; vm_compute; reflexivity. Qed.
Print Assumptions C85_clone_view_refuted.

(** C85, what does hold: at any moment a fresh clone shows what the store it was made from shows, so it is a view of the
    committed contents as long as it is made and used between a commit and the next write.  Missing: see
    C85_clone_view_refuted. *)
Theorem C85_clone_view_partial : forall w i rs, (i < List.length (mw_handles w))%nat ->
  exists answers w1 w2, runMem w (map (MRead i) rs) = Ok (answers, w1) /\
    runMem w (MClone i :: map (MRead (List.length (mw_handles w))) rs) = Ok (answers, w2).
Proof. exact clone_reads. Qed.
Print Assumptions C85_clone_view_partial.

Example C85_example : exists w w1, runMem newMemory [MWrite 0 (WTreeHead (Some [x01])); MWrite 0 (WEntry 0 (Some [x0a])); MCommit 0; MClone 0] = Ok ([], w) /\
  runMem w (MClone 1 :: map (MRead 2) [RTreeHead; REntries [0; 1]]) = Ok ([AHeads (Some [x01]) None; ANums [(0, [x0a])]], w1).
Proof. do 2 eexists. split; vm_compute; reflexivity. Qed.
