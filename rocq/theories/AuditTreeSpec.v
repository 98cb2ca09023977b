(** Specification for C101: the tree that the root in an auditor's state stands for. *)
From Verif Require Import Base LogTreeSpec PrefixModel PrefixSpec CodecModel HandleModel AuditorModel.
Open Scope N_scope.
Local Open Scope list_scope.

(** The sizes guaranteed by the decoder: hashes in the proof, leaves that are shown, and commitments of added entries. *)
Definition decoded (hs : N) (u : auditorUpdate) : Prop :=
  wfProof (N.to_nat hs) (au_proof u) /\ Forall (fun e : bytes * bytes => List.length (snd e) = N.to_nat hs) (au_added u).

(** [root] is the root hash of the prefix tree that holds exactly [entries], with all inputs hashed in [T]. *)
Definition treeWith (f : bytes -> bytes) (T : list bytes) (hs : N) (root : bytes) (entries : list (bytes * bytes)) : Prop :=
  NoDup (map fst entries) /\
  exists t, Canon (N.to_nat hs) [] t /\ thash (restrict f T) (N.to_nat hs) t = Some root /\ forall x, In x (contents t) <-> In x entries.

(** The root before an update, computed from its proof. *)
Definition rootBefore (H : bytes -> option bytes) (hs : N) (u : auditorUpdate) (before : bytes) : Prop :=
  exists after, EvaluateBeforeAfter H (N.to_nat hs) (au_added u) (au_removed u) (au_proof u) = Ok (before, after).

(** The inputs hashed to check [u] are in [T]. *)
Definition hashedIn (f : bytes -> bytes) (T : list bytes) (hs : N) (u : auditorUpdate) : Prop :=
  EvaluateBeforeAfter (restrict f T) (N.to_nat hs) (au_added u) (au_removed u) (au_proof u) =
  EvaluateBeforeAfter (full f) (N.to_nat hs) (au_added u) (au_removed u) (au_proof u).
