(** Specification for C102: a log that an auditor vouches for. *)
From Verif Require Import Base LogTreeSpec PrefixModel PrefixSpec CodecModel HandleModel AuditorModel AuditTreeSpec MutateSpec ServerModel ClientModel GuardSpec AlgModel LaddersModel.
Open Scope N_scope.
Local Open Scope list_scope.

(** What was in the tree at the start, and what the updates added up to the one at position [i]. *)
Definition addedUpTo (start : list (bytes * bytes)) (us : list auditorUpdate) (i : nat) : list (bytes * bytes) := start ++ flat_map au_added (firstn (S i) us).

(** [es] are the log entries of the updates [us], and the tree of each entry holds exactly what had been added by then. *)
Definition logOf (H : bytes -> option bytes) (hs : nat) (start : list (bytes * bytes)) (us : list auditorUpdate) (es : list logEntry) (leaves : list bytes) (trees : list trie) : Prop :=
  commitsTo H hs es leaves trees /\ ordered es /\ map le_ts es = map au_ts us /\
  NoDup (map fst (start ++ flat_map au_added us)) /\
  forall i t, nth_error trees i = Some t -> forall x, In x (contents t) <-> In x (addedUpTo start us i).

(** From entry [z] on, every entry shows version [v] of the label or a greater one. *)
Definition shownFrom (vrf : bytes -> bytes * bytes) (l : bytes) (known : N -> bytes -> Prop) (trees : list trie) (z v : N) : Prop :=
  exists v', v <= v' /\ forall y t, z <= y -> nth_error trees (N.to_nat y) = Some t -> showsVersion vrf l known t v'.

(** [g] is the greatest version of the label at entry [d] (-1: none).  No entry up to [d] holds the version after [g], and of the versions up to [g] in its search ladder
    none is held with another commitment than the known one, before [d] or after it; from [d] on all of these are held. *)
Definition settledAt (vrf : bytes -> bytes * bytes) (l : bytes) (known : N -> bytes -> Prop) (trees : list trie) (d : N) (g : Z) : Prop :=
  (forall y t, y <= d -> nth_error trees (N.to_nat y) = Some t -> heldAs vrf l t (Z.to_N (g + 1)) = None) /\
  forall v, g = Z.of_N v -> exists ladder, searchBinaryLadder v v [] [] = Ok ladder /\ In v ladder /\
    forall w, In w ladder -> w <= v -> exists com, known w com /\
      forall y t, nth_error trees (N.to_nat y) = Some t -> (d <= y -> heldAs vrf l t w = Some com) /\ (heldAs vrf l t w = None \/ heldAs vrf l t w = Some com).
