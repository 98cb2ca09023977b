(** Specification of left-balanced binary trees, independent of the model.

    A tree over the leaves [a, a+len) is a single leaf if [len = 1]; otherwise its
    left subtree holds the largest power of two (below [len]) leaves and its right
    subtree the rest.  Nodes are numbered in order: leaf [i] has number [2*i] and an
    inner node has the odd number between its two subtrees. *)
From Coq Require Import NArith List.
Import ListNotations.
Open Scope N_scope.

(** Largest power of two strictly below [len] (for [len > 1]). *)
Definition split (len : N) : N := 2 ^ N.log2 (len - 1).

(** Number of the root of the subtree over leaves [a, a+len). *)
Definition nodeId (a len : N) : N :=
  if len =? 1 then 2 * a else 2 * (a + split len) - 1.

(** The subtrees of the tree with [n] leaves, as ranges (first leaf, size). *)
Inductive Range (n : N) : N -> N -> Prop :=
| R_root : Range n 0 n
| R_left a len : Range n a len -> 1 < len -> Range n a (split len)
| R_right a len : Range n a len -> 1 < len -> Range n (a + split len) (len - split len).

(** [len] is a power of two. *)
Definition pow2 (len : N) : Prop := exists k, len = 2 ^ k.

(** The decomposition of [n] leaves starting at [a] into maximal perfect subtrees:
    as long as the range is not a power of two, split off the largest power of
    two. *)
Inductive Parts : N -> N -> list (N * N) -> Prop :=
| P_one a len : pow2 len -> Parts a len [(a, len)]
| P_more a len rest : ~ pow2 len -> 1 < len ->
    Parts (a + split len) (len - split len) rest ->
    Parts a len ((a, split len) :: rest).

(** The ranges [parts], read left to right, tile the interval [from, to). *)
Fixpoint tiles (from : N) (parts : list (N * N)) (to : N) : Prop :=
  match parts with
  | [] => from = to
  | (a, len) :: rest => a = from /\ 1 <= len /\ tiles (from + len) rest to
  end.

(** Sizes strictly decrease. *)
Fixpoint decreasing (parts : list (N * N)) : Prop :=
  match parts with
  | (_, l1) :: (((_, l2) :: _) as rest) => l2 < l1 /\ decreasing rest
  | _ => True
  end.

(** Number of one-bits. *)
Fixpoint popcountP (p : positive) : nat :=
  match p with
  | xH => 1
  | xO q => popcountP q
  | xI q => S (popcountP q)
  end.
Definition popcount (n : N) : nat := match n with N0 => 0%nat | Npos p => popcountP p end.

(** Leaf [i] is below the subtree [(a, len)]. *)
Definition inRange (i : N) (z : N * N) : Prop := fst z <= i < fst z + snd z.

(** Range [z] is contained in range [y]. *)
Definition within (z y : N * N) : Prop := fst y <= fst z /\ fst z + snd z <= fst y + snd y.

Definition nodeOf (z : N * N) : N := nodeId (fst z) (snd z).

(** An optional tree size: absent, or between 1 and [n]; and its maximal perfect subtrees. *)
Definition optParts (m : option N) (parts : list (N * N)) : Prop :=
  match m with None => parts = [] | Some k => Parts 0 k parts end.

Definition optSize (n : N) (m : option N) : Prop :=
  match m with None => True | Some k => 1 <= k <= n end.
