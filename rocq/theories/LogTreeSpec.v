(** Specification: the Merkle hash of a list of entries, by direct recursion on the
    list, and the values of its maximal perfect subtrees. *)
From Verif Require Import Base LogMathSpec.

Section Hash.
(** The table of hash evaluations (see LogTreeModel.v). *)
Variable H : bytes -> option bytes.

(** A subtree value as it enters its parent's hash: the first byte says whether the
    subtree is a single entry. *)
Definition tagged (size : N) (v : bytes) : bytes := (if size =? 1 then x00 else x01) :: v.

(** [Mth L v]: the Merkle hash of the non-empty list [L] is [v].  A single entry is its
    own hash; otherwise the list is split at the largest power of two below its
    length. *)
Inductive Mth : list bytes -> bytes -> Prop :=
| Mth_one v : Mth [v] v
| Mth_node l r vl vr h :
    1 < lenN (l ++ r) -> lenN l = split (lenN (l ++ r)) ->
    Mth l vl -> Mth r vr ->
    H (tagged (lenN l) vl ++ tagged (lenN r) vr) = Some h ->
    Mth (l ++ r) h.

(** The entries [a, a+len). *)
Definition slice (L : list bytes) (a len : N) : list bytes :=
  firstn (N.to_nat len) (skipn (N.to_nat a) L).

(** Hash of the subtree over [a, a+len). *)
Definition NodeVal (L : list bytes) (a len : N) (v : bytes) : Prop := Mth (slice L a len) v.

(** [fs] are the values of the maximal perfect subtrees of the first [n] entries of [L],
    left to right. *)
Definition FullValues (L : list bytes) (n : N) (fs : list bytes) : Prop :=
  exists parts, Parts 0 n parts /\ Forall2 (fun z v => NodeVal L (fst z) (snd z) v) parts fs.

(** No two inputs in the table collide, and outputs have the right size. *)
Definition collisionFree : Prop := forall x y h, H x = Some h -> H y = Some h -> x = y.
Definition sized (hs : N) : Prop := forall x h, H x = Some h -> lenN h = hs.
Definition total : Prop := forall x, exists h, H x = Some h.

End Hash.

(** A hash function, as a table of everything. *)
Definition full (f : bytes -> bytes) : bytes -> option bytes := fun x => Some (f x).

(** A hash function restricted to the inputs in [T]. *)
Definition restrict (f : bytes -> bytes) (T : list bytes) : bytes -> option bytes :=
  fun x => if existsb (bytes_eqb x) T then Some (f x) else None.

(** Two different inputs in [T] with the same hash. *)
Definition collisionIn (f : bytes -> bytes) (T : list bytes) : Prop :=
  exists x y, In x T /\ In y T /\ x <> y /\ f x = f y.
