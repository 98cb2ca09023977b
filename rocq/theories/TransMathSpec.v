(** Specification of the search tree over log entries, independent of the model.

    The tree over the entries [a, a+len) has as root the entry that is preceded in
    the range by the largest "power of two minus one" number of entries; the entries
    before it form the left subtree, those after it the right subtree. *)
From Coq Require Import NArith List.
Import ListNotations.
Open Scope N_scope.

(** Number of entries in the left subtree of a tree with [len >= 1] entries. *)
Definition lsize (len : N) : N := 2 ^ N.log2 len - 1.

(** Root entry of the subtree over [a, a+len). *)
Definition sroot (a len : N) : N := a + lsize len.

(** The non-empty subtrees of the search tree of a log of [n] entries. *)
Inductive SRange (n : N) : N -> N -> Prop :=
| SR_root : SRange n 0 n
| SR_left a len : SRange n a len -> 0 < lsize len -> SRange n a (lsize len)
| SR_right a len : SRange n a len -> lsize len + 1 < len ->
    SRange n (sroot a len + 1) (len - lsize len - 1).

(** [y] is an ancestor of entry [x] (or [x] itself). *)
Definition sanc (n x y : N) : Prop :=
  exists a len, SRange n a len /\ y = sroot a len /\ a <= x < a + len.

(** The frontier of the subtree over [a, a+len): its root, then the frontier of its
    right subtree, ending with the last entry. *)
Inductive SFront : N -> N -> list N -> Prop :=
| SF_last a len : len = lsize len + 1 -> SFront a len [sroot a len]
| SF_more a len rest : lsize len + 1 < len ->
    SFront (sroot a len + 1) (len - lsize len - 1) rest ->
    SFront a len (sroot a len :: rest).
