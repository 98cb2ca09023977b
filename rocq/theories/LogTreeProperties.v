(** C04-C07: the log tree (tree/log/log.go, tree/log/verify.go).

    Hash functions are modelled by tables [bytes -> option bytes] (LogTreeModel.v):
    [full f] is the total function [f], [restrict f T] is [f] restricted to the finite
    list of inputs [T].  The soundness theorems hold for every [T]; taking for [T] the
    inputs hashed while building the log and while verifying, their second
    alternative is a collision among inputs that were actually hashed. *)
From Verif Require Import Base LogMathModel LogMathSpec LogTreeModel LogTreeSpec LogTreeProofs3 LogTreeExamples.

(** C04. Appending any entries one at a time to the empty log keeps exactly the values of
    the maximal perfect subtrees of the list, and the root computed from them is
    the Merkle root of the list. *)
Theorem C04_incremental_append : forall (f : bytes -> bytes) hs (L : list bytes),
  (forall x, lenN (f x) = hs) -> 0 < hs ->
  1 <= lenN L <= 2 ^ 63 -> Forall (fun e : bytes => lenN e = hs) L ->
  exists fs r,
    foldM (fun st e => let* fs' := logAppend (full f) (fst st) (snd st) e in Ok (fst st + 1, fs')) L (0, [])
      = Ok (lenN L, fs) /\
    FullValues (full f) L (lenN L) fs /\
    logRoot (full f) hs (lenN L) fs = Ok r /\ Mth (full f) L r.
Proof.
  exact (fun f hs L Hf Hh => c04_append (full f) hs L (full_sized f hs Hf) Hh (fun x => ex_intro _ (f x) eq_refl)).
Qed.
Print Assumptions C04_incremental_append.

Example C04_example :
  foldM (fun st e => let* fs' := logAppend (full toyHash) (fst st) (snd st) e in Ok (fst st + 1, fs')) log5 (0, [])
    = Ok (5, [toyHash in0123; entry 4]) /\
  logRoot (full toyHash) 8 5 [toyHash in0123; entry 4] = Ok (toyHash inRoot) /\
  forall x, lenN (toyHash x) = 8.
Proof. split; [vm_compute; reflexivity|]. split; [vm_compute; reflexivity|]. intro x. reflexivity. Qed.

(** C05. For every log, if the proof consists of the true values of the nodes on the batch
    copath (what an honest server sends), the verifier accepts; it returns the true
    full subtrees of the log, which give its root, and those of its first [nP] entries. *)
Theorem C05_honest_proofs_verify : forall H hs retained entries nP values proof L r cp,
  sized H hs -> 0 < hs ->
  1 <= lenN L <= 2 ^ 63 -> Forall (fun e : bytes => lenN e = hs) L -> Mth H L r ->
  match retained with Some (m, old) => 1 <= m <= lenN L /\ FullValues H L m old | None => True end ->
  Forall2 (fun i w => nth_error L (N.to_nat i) = Some w) entries values ->
  match nP with Some k => 1 <= k <= lenN L | None => True end ->
  batchCopath entries (lenN L) nP (option_map fst retained) = Ok cp ->
  Forall2 (fun x w => forall a len, Range (lenN L) a len -> nodeId a len = x -> NodeVal H L a len w) cp proof ->
  exists fs ad, verifyBatch H hs retained entries (lenN L) nP values proof = Ok (fs, ad) /\
    FullValues H L (lenN L) fs /\ logRoot H hs (lenN L) fs = Ok r /\
    match nP with Some k => FullValues H L k ad | None => ad = [] end.
Proof. exact verifyBatch_complete. Qed.
Print Assumptions C05_honest_proofs_verify.

(** A client that knows the log at size 3 asks about entries 1 and 4 and size 2. *)
Example C05_example :
  batchCopath [1; 4] 5 (Some 2) (Some 3) = Ok [0; 6] /\
  verifyBatch (full toyHash) 8 (Some (3, [toyHash in01; entry 2])) [1; 4] 5 (Some 2)
     [entry 1; entry 4] [entry 0; entry 3]
  = Ok ([toyHash in0123; entry 4], [toyHash in01]).
Proof. split; vm_compute; reflexivity. Qed.

(** C06. Whatever proof was sent: if the verifier accepts and the resulting root is the root
    of a log [L] of [n] entries, then every entry value it was asked about is the
    one in [L], and so are the subtree values it returns -- or there is a collision. *)
Theorem C06_inclusion_sound : forall f T hs retained entries n nP values proof fs ad L r,
  (forall x, lenN (f x) = hs) -> 0 < hs ->
  match retained with Some (m, _) => m <= n | None => True end ->
  lenN L = n -> Forall (fun e : bytes => lenN e = hs) L ->
  verifyBatch (restrict f T) hs retained entries n nP values proof = Ok (fs, ad) ->
  logRoot (restrict f T) hs n fs = Ok r -> Mth (restrict f T) L r ->
  (Forall2 (fun i w => nth_error L (N.to_nat i) = Some w) entries values /\
   FullValues (restrict f T) L n fs /\
   match nP with Some k => FullValues (restrict f T) L k ad | None => ad = [] end)
  \/ collisionIn f T.
Proof. exact c06_sound. Qed.
Print Assumptions C06_inclusion_sound.

Example C06_example :
  verifyBatch (restrict toyHash tbl) 8 None [2] 5 None [entry 2] [toyHash in01; entry 3; entry 4]
    = Ok ([toyHash in0123; entry 4], []) /\
  logRoot (restrict toyHash tbl) 8 5 [toyHash in0123; entry 4] = Ok (toyHash inRoot) /\
  verifyBatch (restrict toyHash tbl) 8 (Some (3, [toyHash in01; entry 1])) [2] 5 None [entry 2] [entry 3; entry 4]
    = Fail "different values presented for same node index".
Proof. repeat split; vm_compute; reflexivity. Qed.

(** C07. A verifier that retained [old] for size [m] accepts size [n]: then [old] are the
    full subtrees of the first [m] entries of the new log; and if they are what any
    log [L'] of [m] entries gave it, then [L'] is a prefix of the new log. *)
Theorem C07_append_only : forall f T hs m old entries n nP values proof fs ad L r,
  (forall x, lenN (f x) = hs) -> 0 < hs -> m <= n ->
  lenN L = n -> Forall (fun e : bytes => lenN e = hs) L ->
  verifyBatch (restrict f T) hs (Some (m, old)) entries n nP values proof = Ok (fs, ad) ->
  logRoot (restrict f T) hs n fs = Ok r -> Mth (restrict f T) L r ->
  (FullValues (restrict f T) L m old /\
   forall L' r', lenN L' = m -> Forall (fun e : bytes => lenN e = hs) L' ->
     logRoot (restrict f T) hs m old = Ok r' -> Mth (restrict f T) L' r' -> L' = firstn (N.to_nat m) L)
  \/ collisionIn f T.
Proof. exact c07_consistent. Qed.
Print Assumptions C07_append_only.

Example C07_example :
  verifyBatch (restrict toyHash tbl) 8 (Some (3, [toyHash in01; entry 2])) [] 5 None [] [entry 3; entry 4]
    = Ok ([toyHash in0123; entry 4], []).
Proof. vm_compute. reflexivity. Qed.

(** C63 is false as stated: a client that retained size 2 and is shown size 1
    walks off the tree while computing the copath. *)
Theorem C63_verifier_crash_refuted : exists H hs retained entries n nP values proof,
  sized H hs /\ 0 < hs /\
  match retained with Some (m, old) => FullValues H [entry 0; entry 1] m old | None => False end /\
  exists msg, verifyBatch H hs retained entries n nP values proof = Panic msg.
Proof.
  exact c63_witness.
Qed.
Print Assumptions C63_verifier_crash_refuted.

(** C63, for retained sizes up to the claimed size (what is missing: larger ones,
    refuted above): the verifier always answers. *)
Theorem C63_verifier_total_partial : forall H hs retained entries n nP values proof,
  sized H hs -> 0 < hs -> match retained with Some (m, _) => m <= n | None => True end ->
  (exists fs ad, verifyBatch H hs retained entries n nP values proof = Ok (fs, ad)) \/
  (exists msg, verifyBatch H hs retained entries n nP values proof = Fail msg).
Proof. exact verifyBatch_total. Qed.
Print Assumptions C63_verifier_total_partial.

Example C63_example :
  verifyBatch (full toyHash) 8 (Some (3, [entry 1; entry 2])) [4; 2; 2] 5 (Some 0) [] [entry 0] = Fail "invalid value for additional tree size".
Proof. vm_compute. reflexivity. Qed.
