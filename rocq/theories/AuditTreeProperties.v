(** C101: the tree whose root an auditor vouches for. *)
From Verif Require Import Base LogTreeSpec PrefixModel PrefixSpec PrefixExamples CodecModel HandleModel AuditorModel AuditorSpec AuditorExamples AuditTreeSpec AuditTreeProofs AuditTreeExamples.
Open Scope N_scope.
Local Open Scope list_scope.

(** C101.  The auditor went through any history of updates (with any proofs), commits, failures and restarts; [us] are the updates its state has seen accepted, and none of them removes anything.
    If the first one started from the root of the tree with the entries [start] then the root in the auditor's state is that of the tree with exactly these entries and the ones that were added,
    and no key was added twice or was there at first; or the hash function is broken on the inputs [T]. *)
Theorem C101_auditor_tree : forall f hs, (forall x, lenN (f x) = hs) -> 0 < hs ->
  forall c sign key us ps a s, audited (full f) hs c sign key us ps a -> a_state a = Some s ->
  forall T, Forall (fun u => au_removed u = [] /\ decoded hs u /\ hashedIn f T hs u) us ->
  forall u rest before start, us = u :: rest -> rootBefore (full f) hs u before -> treeWith f T hs before start ->
  treeWith f T hs (as_prefix s) (start ++ flat_map au_added us) \/ broken f (N.to_nat hs) T.
Proof. exact audited_tree. Qed.
Print Assumptions C101_auditor_tree.

Example C101_example : auditedX [fst v0; fst v1] [] a2 /\ Forall (fun u => au_removed u = [] /\ decoded 32 u /\ hashedIn toy32 atab 32 u) [fst v0; fst v1] /\
  rootBefore (full toy32) 32 (fst v0) (repeat x00 32) /\ treeWith toy32 atab 32 (repeat x00 32) [] /\
  flat_map au_added [fst v0; fst v1] = [(akey x40, acom); (akey x60, acom)] /\ ~ broken toy32 32 atab.
Proof. exact c101_example. Qed.
