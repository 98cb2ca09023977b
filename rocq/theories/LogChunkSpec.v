(** Specification of the stored log: the value of the perfect subtree at (level, index), and what the database holds
    for a log. *)
From Verif Require Import Base LogTreeSpec.

(** The perfect subtree at level [k] with index [q] covers the entries [q * 2^k, (q+1) * 2^k); it is there if the log has
    that many entries. *)
Definition fullN (n k q : N) : bool := (q + 1) * 2 ^ k <=? n.

Definition tagK (k : N) (v : bytes) : bytes := (if k =? 0 then x00 else x01) :: v.

(** Its hash. *)
Fixpoint hvalF (f : bytes -> bytes) (L : list bytes) (k : nat) (q : N) : bytes :=
  match k with
  | O => nth (N.to_nat q) L []
  | S k' => f (tagK (N.of_nat k') (hvalF f L k' (2 * q)) ++ tagK (N.of_nat k') (hvalF f L k' (2 * q + 1)))
  end.
Definition hval (f : bytes -> bytes) (L : list bytes) (k q : N) : bytes := hvalF f L (N.to_nat k) q.

(** Contents of chunk [p] of the row with bottom level [b]: the hashes of those of its eight bottom nodes that are
    there. *)
Definition chunkData (f : bytes -> bytes) (L : list bytes) (n b p : N) : bytes :=
  List.concat (map (fun o => hval f L b (8 * p + o)) (filter (fun o => fullN n b (8 * p + o)) [0; 1; 2; 3; 4; 5; 6; 7])).
