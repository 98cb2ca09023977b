(** C08: the database-backed log (tree/log/log.go [Tree], tree/log/chunk.go).

    Starting from an empty database, the entries of a list are appended one by one;
    each append loads the chunks it needs from the stored bytes, and writes the modified
    ones back.  [FullValues], [NodeVal] and [Mth] (LogTreeSpec.v) are defined by hashing
    the whole list directly. *)
From Verif Require Import Base LogMathModel LogMathSpec LogTreeModel LogTreeSpec LogTreeExamples LogChunkModel LogChunkProofs7.

(** C08. Appending any list of entries of the right length (up to 2^63 of them) to the empty
    database never fails and returns each time the full subtrees of the list.  On the
    resulting database, any request for the current or an earlier size is answered or
    refused with an error, never with a panic; a valid request is answered with the true
    hashes of the subtrees it needs. *)
Theorem C08_stored_log : forall (f : bytes -> bytes) hs,
  (forall x, lenN (f x) = hs) -> 0 < hs -> forall L : list bytes,
  lenN L <= 2 ^ 63 -> Forall (fun e : bytes => lenN e = hs) L ->
  exists fs st,
    foldM (fun s e => let* (fs, st) := treeAppend (full f) hs (snd s) (fst (fst s)) e in Ok (fst (fst s) + 1, fs, st)) L (0, [], [])
      = Ok (lenN L, fs, st) /\
    (L <> [] -> FullValues (full f) L (lenN L) fs) /\
    (forall entries n nP m, n <= lenN L ->
       (exists proof, getBatch (full f) hs st entries n nP m = Ok proof) \/
       (exists msg, getBatch (full f) hs st entries n nP m = Fail msg)) /\
    (forall entries n nP m, 1 <= n <= lenN L -> Forall (fun i => i < n) entries -> NoDup entries -> optSize n nP -> optSize n m ->
       exists cp proof, batchCopath entries n nP m = Ok cp /\ getBatch (full f) hs st entries n nP m = Ok proof /\
         Forall2 (fun x w => forall a len, Range n a len -> nodeId a len = x -> NodeVal (full f) L a len w) cp proof).
Proof. exact c08_all. Qed.
Print Assumptions C08_stored_log.

(** C08, seen from a client: whatever was appended, a proof for any size, entries and
    previous view the database is asked for is accepted, and gives the Merkle root of the
    log at that size, together with the full subtrees the client has to retain. *)
Theorem C08_stored_proofs_verify : forall (f : bytes -> bytes) hs,
  (forall x, lenN (f x) = hs) -> 0 < hs -> forall (L : list bytes) entries values n nP m r,
  lenN L <= 2 ^ 63 -> Forall (fun e : bytes => lenN e = hs) L -> 1 <= n <= lenN L ->
  NoDup entries -> Forall2 (fun i w => i < n /\ nth_error L (N.to_nat i) = Some w) entries values -> optSize n nP ->
  match m with Some (k, old) => 1 <= k <= n /\ FullValues (full f) L k old | None => True end ->
  Mth (full f) (firstn (N.to_nat n) L) r ->
  exists fs st proof fs' ad,
    foldM (fun s e => let* (fs, st) := treeAppend (full f) hs (snd s) (fst (fst s)) e in Ok (fst (fst s) + 1, fs, st)) L (0, [], [])
      = Ok (lenN L, fs, st) /\
    getBatch (full f) hs st entries n nP (option_map fst m) = Ok proof /\
    verifyBatch (full f) hs m entries n nP values proof = Ok (fs', ad) /\ logRoot (full f) hs n fs' = Ok r /\
    FullValues (full f) L n fs' /\ match nP with Some k => FullValues (full f) L k ad | None => ad = [] end.
Proof. exact c08_verified. Qed.
Print Assumptions C08_stored_proofs_verify.

(** Twenty entries go to four chunks; a proof for size 13 is made from them. *)
Example C08_example :
  let L := map entry [0;1;2;3;4;5;6;7;8;9;10;11;12;13;14;15;16;17;18;19] in
  (exists fs st,
    foldM (fun s e => let* (fs, st) := treeAppend (full toyHash) 8 (snd s) (fst (fst s)) e in Ok (fst (fst s) + 1, fs, st)) L (0, [], [])
      = Ok (20, fs, st) /\
    List.length fs = 2%nat /\ List.length (nodup N.eq_dec (map fst st)) = 4%nat /\
    (exists proof, getBatch (full toyHash) 8 st [9; 4] 13 None (Some 3) = Ok proof /\ List.length proof = 6%nat) /\
    getBatch (full toyHash) 8 st [9; 13] 13 None None = Fail "can not get leaf beyond right edge of tree").
Proof.
  cbv zeta. do 2 eexists. split; [vm_compute; reflexivity|]. split; [vm_compute; reflexivity|]. split; [vm_compute; reflexivity|].
  split; [eexists; split; vm_compute; reflexivity|vm_compute; reflexivity].
Qed.
